(** Proofs about the model of src/util.c and src/noise.c. *)
From Verif Require Import CSem Params Util UtilSpec.

(* ================================================================== *)
(** * Packing *)

Definition gen_inner (Ww Wo D1 D2 : Z) (inp : list Z) (inlen i : Z) (st : pack_st)
    : res (pack_st * bool) :=
  let '(out, j, w, bits, b) := st in
  branch (b <? D2)
    (nbits <- branch (D2 - b <? bits) (ret (D2 - b)) (ret bits) ;;
     m1 <- shl32 1 nbits ;;
     let mask := u16 (m1 - 1) in
     w1 <- shr32 w (bits - nbits) ;;
     let t := u8 (Z.land w1 mask) in
     o <- rd out i ;;
     t1 <- shl32 t (D2 - b - nbits) ;;
     o1 <- i32 (o + t1) ;;
     out <- wr out i (o1 mod Wo) ;;
     let b := u8 (b + nbits) in
     let bits := u8 (bits - nbits) in
     m2 <- shl32 mask bits ;;
     let w := (Z.land w (Z.lnot m2)) mod Ww in
     branch (bits =? 0)
       (branch (j <? inlen)
          (w <- rd inp j ;; ret ((out, j + 1, w, D1, b), true))
          (ret ((out, j, w, bits, b), false)))
       (ret ((out, j, w, bits, b), true)))
    (ret (st, false)).

Definition gen_outer (Ww Wo D1 D2 : Z) (outlen : Z) (inp : list Z) (inlen : Z)
    (st : list Z * Z * Z * Z * Z) : res (list Z * Z * Z * Z * Z * bool) :=
  let '(out, i, j, w, bits) := st in
  branch ((i <? outlen) && ((j <? inlen) || ((j =? inlen) && (0 <? bits))))
    ('(out, j, w, bits, b) <- loop 64 (gen_inner Ww Wo D1 D2 inp inlen i) (out, j, w, bits, 0) ;;
     branch (b =? D2)
       (ret ((out, i + 1, j, w, bits), true))
       (ret ((out, i, j, w, bits), true)))
    (ret (st, false)).

Definition gen_pack (Ww Wo D1 D2 : Z) (out : list Z) (outlen : Z) (inp : list Z) (inlen : Z)
   : res (list Z) :=
  out <- memset out 0 0 outlen ;;
  '(out, _, _, _, _) <- loop (Z.to_nat (outlen + 3)) (gen_outer Ww Wo D1 D2 outlen inp inlen)
                          (out, 0, 0, 0, 0) ;;
  ret out.

Lemma frodo_pack_gen out outlen inp inlen lsb :
  frodo_pack out outlen inp inlen lsb = gen_pack 65536 256 lsb 8 out outlen inp inlen.
Proof. reflexivity. Qed.
Lemma frodo_unpack_gen out outlen inp inlen lsb :
  frodo_unpack out outlen inp inlen lsb = gen_pack 256 65536 8 lsb out outlen inp inlen.
Proof. reflexivity. Qed.

Lemma zsum_bits n : 0 <= n -> forall w c, 0 <= c ->
  Z.shiftr w c mod 2 ^ n =
  zsum n (fun u => Z.b2z (Z.testbit w (c + n - 1 - u)) * 2 ^ (n - 1 - u)).
Proof.
  intros Hn; pattern n; apply natlike_ind; [| |exact Hn].
  - intros; rewrite zsum_0; apply Z.mod_1_r.
  - clear n Hn; intros n Hn IH w c Hc; unfold Z.succ; rewrite zsum_succ by lia.
    rewrite (zsum_ext n _ (fun u => 2 * (Z.b2z (Z.testbit w ((c + 1) + n - 1 - u)) * 2 ^ (n - 1 - u)))).
    2:{ intros u Hu. replace (n + 1 - 1 - u) with (n - 1 - u + 1) by lia.
        rewrite Z.pow_add_r by lia. replace (c + (n + 1) - 1 - u) with (c + 1 + n - 1 - u) by lia.
        lia. }
    rewrite zsum_scale, <- IH by lia.
    replace (c + (n + 1) - 1 - n) with c by lia.
    replace (n + 1 - 1 - n) with 0 by lia. rewrite Z.pow_0_r, Z.mul_1_r.
    rewrite <- Z.shiftr_shiftr by lia.
    replace (Z.testbit w c) with (Z.testbit (Z.shiftr w c) 0)
      by (rewrite Z.shiftr_spec by lia; f_equal; lia).
    set (x := Z.shiftr w c).
    rewrite (Z.shiftr_div_pow2 x 1) by lia. change (2 ^ 1) with 2.
    rewrite Z.pow_add_r by lia. change (2 ^ 1) with 2.
    rewrite (Z.mul_comm (2 ^ n) 2), Z.rem_mul_r by (try lia; apply Z.pow_nonzero; lia).
    rewrite <- Z.bit0_mod; lia.
Qed.

Lemma stream_bit_range D l k : 0 <= stream_bit D l k <= 1.
Proof. unfold stream_bit; destruct (Z.testbit _ _); cbn; lia. Qed.

Lemma stream_bit_at D l j u : 0 < D -> 0 <= u < D ->
  stream_bit D l (D * j + u) = Z.b2z (Z.testbit (znth l j) (D - 1 - u)).
Proof.
  intros; unfold stream_bit.
  replace (D * j + u) with (u + j * D) by lia.
  rewrite Z.div_add, Z.mod_add, Z.div_small, Z.mod_small by lia; reflexivity.
Qed.

Lemma stream_bit_end D l k : 0 < D -> D * zlen l <= k -> stream_bit D l k = 0.
Proof.
  intros; unfold stream_bit; rewrite znth_out, Z.bits_0; [reflexivity|].
  apply Z.div_le_lower_bound; lia.
Qed.

(** Value of the first [b] bits of output element [m]. *)
Definition pb (D1 D2 : Z) (inp : list Z) (m b : Z) : Z :=
  zsum b (fun t => stream_bit D1 inp (D2 * m + t) * 2 ^ (D2 - 1 - t)).

Lemma pb_bound D1 D2 inp m b : 0 <= b <= D2 ->
  0 <= pb D1 D2 inp m b <= 2 ^ D2 - 2 ^ (D2 - b).
Proof.
  intros (Hb & Hb2); unfold pb; revert Hb2; pattern b; apply natlike_ind; [| |exact Hb].
  - intros; rewrite zsum_0, Z.sub_0_r; lia.
  - clear b Hb; intros b Hb IH Hb2; unfold Z.succ in *; rewrite zsum_succ by lia.
    specialize (IH ltac:(lia)).
    pose proof (stream_bit_range D1 inp (D2 * m + b)) as HB.
    replace (D2 - b) with ((D2 - (b + 1)) + 1) in IH by lia.
    rewrite Z.pow_add_r in IH by lia; change (2 ^ 1) with 2 in IH.
    replace (D2 - 1 - b) with (D2 - (b + 1)) by lia.
    pose proof (Z.pow_pos_nonneg 2 (D2 - (b + 1))). nia.
Qed.

Lemma pow2_le_16 n : 0 <= n <= 16 -> 1 <= 2 ^ n <= 65536.
Proof.
  intros; split; [pose proof (Z.pow_pos_nonneg 2 n); lia|].
  change 65536 with (2 ^ 16); apply Z.pow_le_mono_r; lia.
Qed.
Lemma pow2_le_8 n : 0 <= n <= 8 -> 1 <= 2 ^ n <= 256.
Proof.
  intros; split; [pose proof (Z.pow_pos_nonneg 2 n); lia|].
  change 256 with (2 ^ 8); apply Z.pow_le_mono_r; lia.
Qed.

Lemma land_pow2m1 x n : 0 <= n -> Z.land x (2 ^ n - 1) = x mod 2 ^ n.
Proof. intros; rewrite <- Z.land_ones by lia; f_equal; rewrite Z.ones_equiv; lia. Qed.

Lemma land_le_l a b : 0 <= a -> Z.land a b <= a.
Proof.
  intros Ha.
  assert (E : a = Z.land a b + Z.ldiff a b).
  { rewrite Z.add_nocarry_lxor.
    - apply Z.bits_inj'; intros k Hk; rewrite Z.lxor_spec, Z.land_spec, Z.ldiff_spec.
      destruct (Z.testbit a k), (Z.testbit b k); reflexivity.
    - apply Z.bits_inj'; intros k Hk; rewrite !Z.land_spec, Z.ldiff_spec, Z.bits_0.
      destruct (Z.testbit a k), (Z.testbit b k); reflexivity. }
  assert (0 <= Z.ldiff a b) by (apply Z.ldiff_nonneg; left; lia). lia.
Qed.

Section Gen.
  Variables (Ww Wo D1 D2 : Z) (inp : list Z) (outlen : Z).
  Hypothesis HD1 : 1 <= D1 <= 16.
  Hypothesis HD2 : 1 <= D2 <= 16.
  Hypothesis H8 : D1 <= 8 \/ D2 <= 8.
  Hypothesis HWw : 0 < Ww <= 65536.
  Hypothesis HWo : 2 ^ D2 <= Wo <= 65536.
  Hypothesis Hinp : inrange Ww inp.
  Hypothesis Hout : 0 <= outlen.

  Let inlen := zlen inp.
  Definition outform (i b : Z) : list Z :=
    ztab outlen (fun m => if m <? i then pb D1 D2 inp m D2
                          else if m =? i then pb D1 D2 inp m b else 0).

  (** What holds of (out, i, j, w, bits, b) between steps. *)
  Record pinv (out : list Z) (i j w bits b : Z) : Prop := {
    pi_out : out = outform i b;
    pi_i : 0 <= i <= outlen;
    pi_j : 0 <= j <= inlen;
    pi_bits : 0 <= bits <= D1;
    pi_b : 0 <= b <= D2;
    pi_pos : D1 * j - bits = D2 * i + b;
    pi_w : 0 <= w < Ww;
    pi_low : bits > 0 -> 1 <= j /\ forall u, 0 <= u < bits -> Z.testbit w u = Z.testbit (znth inp (j - 1)) u
  }.

  Lemma outform_ok i b : 0 <= b <= D2 -> u16s_ok (outform i b).
  Proof.
    intros; apply inrange_ztab; intros m Hm.
    pose proof (pow2_le_16 D2). pose proof (pb_bound D1 D2 inp m D2 ltac:(lia)).
    pose proof (pb_bound D1 D2 inp m b ltac:(lia)).
    pose proof (Z.pow_pos_nonneg 2 (D2 - b)). pose proof (Z.pow_pos_nonneg 2 (D2 - D2)).
    destruct (m <? i); [lia|]; destruct (m =? i); lia.
  Qed.

  Lemma pb_step i j w bits b nbits :
    0 <= b -> 0 <= nbits <= bits -> b + nbits <= D2 -> bits <= D1 ->
    D1 * j - bits = D2 * i + b ->
    (bits > 0 -> 1 <= j /\ forall u, 0 <= u < bits -> Z.testbit w u = Z.testbit (znth inp (j - 1)) u) ->
    pb D1 D2 inp i b + (Z.shiftr w (bits - nbits) mod 2 ^ nbits) * 2 ^ (D2 - b - nbits)
    = pb D1 D2 inp i (b + nbits).
  Proof.
    intros Hb Hn Hbn HbD Hpos Hlow.
    unfold pb at 2; rewrite zsum_split by lia; fold (pb D1 D2 inp i b); f_equal.
    rewrite zsum_bits by lia.
    rewrite <- zsum_scale_r.
    apply zsum_ext; intros u Hu.
    destruct (Hlow ltac:(lia)) as (Hj & Hw).
    replace (bits - nbits + nbits - 1 - u) with (bits - 1 - u) by lia.
    rewrite Hw by lia.
    replace (D2 * i + (b + u)) with (D1 * (j - 1) + (D1 - bits + u)) by lia.
    rewrite stream_bit_at by lia.
    replace (D1 - 1 - (D1 - bits + u)) with (bits - 1 - u) by lia.
    rewrite <- Z.mul_assoc, <- Z.pow_add_r by lia.
    do 2 f_equal; lia.
  Qed.

  Lemma outform_step i b nbits v : 0 <= i < outlen -> v = pb D1 D2 inp i (b + nbits) ->
    zset (outform i b) i v = outform i (b + nbits).
  Proof.
    intros Hi ->; unfold outform; apply list_ext.
    - rewrite zlen_zset, !zlen_ztab by lia; reflexivity.
    - intros m Hm; rewrite zlen_zset, zlen_ztab in Hm by lia.
      rewrite znth_zset by (rewrite zlen_ztab by lia; lia).
      rewrite !znth_ztab by lia.
      destruct (Z.eqb_spec i m); destruct (Z.ltb_spec m i); destruct (Z.eqb_spec m i); try lia.
      now subst m.
  Qed.

  Definition imu (s : pack_st) : nat :=
    let '(_, _, _, bits, b) := s in
    Z.to_nat (2 * (D2 - b) + (if bits =? 0 then 1 else 0)).

  Lemma gen_inner_wp i out j w bits :
    0 <= i < outlen -> pinv out i j w bits 0 ->
    wp (loop 64 (gen_inner Ww Wo D1 D2 inp inlen i) (out, j, w, bits, 0))
       (fun '(out, j, w, bits, b) =>
          pinv out i j w bits b /\ (b = D2 \/ (j = inlen /\ bits = 0))).
  Proof.
    intros Hi H0.
    apply (wp_loop (fun s => let '(out, j, w, bits, b) := s in pinv out i j w bits b) imu).
    - exact H0.
    - destruct H0; unfold imu; destruct (bits =? 0); lia.
    - clear out j w bits H0.
      intros ((((out, j), w), bits), b) [Po Pi Pj Pbits Pb Ppos Pw Plow].
      unfold gen_inner.
      apply wp_branch; intros Hb; [apply Z.ltb_lt in Hb | apply Z.ltb_ge in Hb].
      2:{ apply wp_ret; cbn [fst snd]; split; [constructor; auto|left; lia]. }
      apply wp_bind.
      assert (Hnb : wp (branch (D2 - b <? bits) (ret (D2 - b)) (ret bits))
                (fun nbits => nbits = Z.min (D2 - b) bits)).
      { apply wp_branch; intros Hc; [apply Z.ltb_lt in Hc|apply Z.ltb_ge in Hc];
          apply wp_ret; lia. }
      eapply wp_mono; [exact Hnb|]; clear Hnb; intros nbits Hnb; cbv beta in Hnb.
      assert (Hn8 : 0 <= nbits <= 8) by lia.
      pose proof (pow2_le_8 nbits Hn8) as HP.
      apply wp_bind, wp_shl32; [lia|lia|lia|]; rewrite Z.mul_1_l.
      replace (u16 (2 ^ nbits - 1)) with (2 ^ nbits - 1) by (unfold u16; rewrite Z.mod_small; lia).
      apply wp_bind, wp_shr32; [lia|].
      rewrite land_pow2m1 by lia.
      set (t := Z.shiftr w (bits - nbits) mod 2 ^ nbits).
      assert (Ht : 0 <= t < 2 ^ nbits) by (apply Z.mod_pos_bound; lia).
      unfold u8 at 1; rewrite (Z.mod_small t) by lia.
      pose proof (outform_ok i b ltac:(lia)) as Hok.
      assert (Hlen : zlen out = outlen) by (subst out; unfold outform; now rewrite zlen_ztab).
      assert (Hoi : znth out i = pb D1 D2 inp i b).
      { subst out; unfold outform; rewrite znth_ztab by lia.
        rewrite Z.ltb_irrefl, Z.eqb_refl; reflexivity. }
      pose proof (pb_bound D1 D2 inp i b ltac:(lia)) as Hpb.
      apply wp_bind, wp_rd; [lia|lia|]; rewrite Hoi.
      assert (Hstep := pb_step i j w bits b nbits ltac:(lia) ltac:(lia) ltac:(lia) ltac:(lia) Ppos Plow).
      fold t in Hstep.
      pose proof (pb_bound D1 D2 inp i (b + nbits) ltac:(lia)) as Hpb2.
      pose proof (pow2_le_16 D2 ltac:(lia)) as HPD2.
      pose proof (Z.pow_pos_nonneg 2 (D2 - (b + nbits)) ltac:(lia) ltac:(lia)) as HPx.
      pose proof (Z.pow_pos_nonneg 2 (D2 - b - nbits) ltac:(lia) ltac:(lia)) as HPy.
      assert (0 <= t * 2 ^ (D2 - b - nbits)) by nia.
      apply wp_bind, wp_shl32; [lia|lia|lia|].
      apply wp_bind, wp_i32; [lia|].
      rewrite Hstep.
      rewrite (Z.mod_small (pb D1 D2 inp i (b + nbits))) by lia.
      apply wp_bind, wp_wr; [lia|].
      subst out; rewrite (outform_step i b nbits _ Hi eq_refl).
      unfold u8; rewrite (Z.mod_small (b + nbits)), (Z.mod_small (bits - nbits)) by lia.
      assert (Hsh : (2 ^ nbits - 1) * 2 ^ (bits - nbits) < 65536).
      { pose proof (pow2_le_16 (bits - nbits) ltac:(lia)).
        pose proof (pow2_le_16 bits ltac:(lia)).
        assert (2 ^ nbits * 2 ^ (bits - nbits) = 2 ^ bits)
          by (rewrite <- Z.pow_add_r by lia; f_equal; lia). lia. }
      apply wp_bind, wp_shl32; [lia|lia|lia|].
      assert (Hw' : 0 <= Z.land w (Z.lnot ((2 ^ nbits - 1) * 2 ^ (bits - nbits))) < Ww).
      { split; [apply Z.land_nonneg; left; lia|].
        eapply Z.le_lt_trans; [apply land_le_l; lia|lia]. }
      pose proof (Z.mod_pos_bound (Z.land w (Z.lnot ((2 ^ nbits - 1) * 2 ^ (bits - nbits)))) Ww ltac:(lia)).
      set (w' := Z.land w (Z.lnot ((2 ^ nbits - 1) * 2 ^ (bits - nbits))) mod Ww).
      apply wp_branch; intros Hz; [apply Z.eqb_eq in Hz|apply Z.eqb_neq in Hz].
      + apply wp_branch; intros Hj; [apply Z.ltb_lt in Hj|apply Z.ltb_ge in Hj].
        * pose proof (inrange_znth Ww inp j Hinp ltac:(unfold inlen in *; lia)) as Hv.
          apply wp_bind, wp_rd; [unfold inlen in *; lia|lia|].
          apply wp_ret; cbn [fst snd]; split.
          -- constructor; auto; try lia.
             ++ intros _; split; [lia|]; intros u Hu; now replace (j + 1 - 1) with j by lia.
          -- unfold imu. destruct (Z.eqb_spec D1 0); [lia|].
             destruct (Z.eqb_spec bits 0); lia.
        * apply wp_ret; cbn [fst snd]; split; [|right; lia].
          constructor; auto; try lia.
      + apply wp_ret; cbn [fst snd]; split.
        * constructor; auto; try lia.
          intros _; destruct (Plow ltac:(lia)) as (Hj & Hl); split; [exact Hj|].
          intros u Hu; rewrite <- Hl by lia; subst w'.
          rewrite (Z.mod_small (Z.land _ _)) by exact Hw'.
          rewrite Z.land_spec, Z.lnot_spec by lia.
          rewrite <- Z.shiftl_mul_pow2 by lia; rewrite Z.shiftl_spec_low by lia.
          now rewrite andb_true_r.
        * unfold imu. destruct (Z.eqb_spec (bits - nbits) 0); [lia|].
          destruct (Z.eqb_spec bits 0); lia.
  Qed.

  Definition omu (s : list Z * Z * Z * Z * Z) : nat :=
    let '(_, i, j, _, bits) := s in
    Z.to_nat (outlen - i + (if (j =? inlen) && (bits =? 0) then 0 else 1)).

  Lemma gen_outer_wp out :
    out = outform 0 0 ->
    wp (loop (Z.to_nat (outlen + 3)) (gen_outer Ww Wo D1 D2 outlen inp inlen) (out, 0, 0, 0, 0))
       (fun '(out, i, j, w, bits) => out = repack D1 D2 outlen inp).
  Proof.
    intros H0.
    pose proof (zlen_nonneg inp) as Hil.
    apply (wp_loop (fun s => let '(out, i, j, w, bits) := s in
       exists b, pinv out i j w bits b /\ (b = 0 \/ (j = inlen /\ bits = 0))) omu).
    - exists 0; split; [|now left].
      constructor; auto; try (unfold inlen; lia).
    - unfold omu; destruct (_ && _); lia.
    - clear out H0.
      intros ((((out, i), j), w), bits) (b & HI & Hb).
      unfold gen_outer.
      apply wp_branch; intros Hc.
      + rewrite andb_true_iff, orb_true_iff, andb_true_iff, !Z.ltb_lt, Z.eqb_eq in Hc.
        destruct Hc as (Hi & Hc).
        destruct Hb as [->|Hb]; [|lia].
        apply wp_bind.
        eapply wp_mono; [apply gen_inner_wp; [destruct HI; lia|exact HI]|].
        intros ((((out', j'), w'), bits'), b') (HI' & Hb').
        apply wp_branch; intros Hbb; [apply Z.eqb_eq in Hbb|apply Z.eqb_neq in Hbb];
          apply wp_ret; cbn [fst snd].
        * subst b'. split.
          -- exists 0; split; [|now left].
             destruct HI' as [Po Pi Pj Pbits Pb Ppos Pw Plow].
             constructor; auto; try lia.
             subst out'; unfold outform; apply ztab_ext; intros m Hm.
             destruct (Z.ltb_spec m i); destruct (Z.ltb_spec m (i + 1));
               destruct (Z.eqb_spec m i); destruct (Z.eqb_spec m (i + 1)); try lia; auto.
          -- unfold omu.
             destruct (Z.eqb_spec j inlen); destruct (Z.eqb_spec bits 0);
             destruct (Z.eqb_spec j' inlen); destruct (Z.eqb_spec bits' 0);
               cbn [andb]; destruct HI', HI; lia.
        * destruct Hb' as [|(-> & ->)]; [lia|].
          split.
          -- exists b'; split; [exact HI'|right; auto].
          -- unfold omu; rewrite Z.eqb_refl; cbn [andb Z.eqb].
             destruct (Z.eqb_spec j inlen); destruct (Z.eqb_spec bits 0); cbn [andb];
               destruct HI; lia.
      + apply wp_ret; cbn [fst snd].
        destruct HI as [Po Pi Pj Pbits Pb Ppos Pw Plow].
        subst out; unfold outform, repack; apply ztab_ext; intros m Hm.
        destruct (Z.ltb_spec m i) as [|Hmi]; [reflexivity|].
        assert (Hend : j = inlen /\ bits = 0).
        { rewrite andb_false_iff, orb_false_iff, andb_false_iff in Hc.
          rewrite !Z.ltb_ge, Z.eqb_neq in Hc. destruct Hc as [Hc|(Hc1 & [Hc2|Hc2])]; lia. }
        destruct Hend as (-> & ->).
        fold (pb D1 D2 inp m D2).
        assert (Hzero : forall t, D2 * i + b <= D2 * m + t -> stream_bit D1 inp (D2 * m + t) = 0).
        { intros t Ht; apply stream_bit_end; [lia|]; unfold inlen in *; lia. }
        destruct (Z.eqb_spec m i) as [->|Hne].
        * replace (pb D1 D2 inp i D2) with (pb D1 D2 inp i (b + (D2 - b))) by (f_equal; lia).
          unfold pb; rewrite zsum_split by lia.
          rewrite (zsum_ext (D2 - b) _ (fun _ => 0)); [rewrite zsum_zero; lia|].
          intros t Ht; rewrite Hzero by lia; lia.
        * unfold pb; rewrite (zsum_ext D2 _ (fun _ => 0)); [now rewrite zsum_zero|].
          intros t Ht; rewrite Hzero by nia; lia.
  Qed.

  Lemma gen_pack_wp out : zlen out = outlen ->
    wp (gen_pack Ww Wo D1 D2 out outlen inp inlen) (fun r => r = repack D1 D2 outlen inp).
  Proof.
    intros Hl; unfold gen_pack.
    apply wp_bind, wp_memset; try lia.
    rewrite zsplice_all by (rewrite zlen_zrep; lia).
    apply wp_bind; eapply wp_mono; [apply gen_outer_wp|].
    - unfold outform; apply list_ext; [rewrite zlen_zrep, zlen_ztab; lia|].
      intros m Hm; rewrite zlen_zrep in Hm by lia.
      rewrite znth_zrep0, znth_ztab by lia.
      destruct (Z.ltb_spec m 0); [lia|]; destruct (m =? 0); reflexivity.
    - intros ((((o, i), j), w), bits) ->; now apply wp_ret.
  Qed.
End Gen.

Theorem frodo_pack_wp D out outlen inp :
  1 <= D <= 16 -> u16s_ok inp -> zlen out = outlen ->
  wp (frodo_pack out outlen inp (zlen inp) D) (fun r => r = pack_spec D outlen inp).
Proof.
  intros; rewrite frodo_pack_gen; apply gen_pack_wp; auto; try lia.
  - subst; apply zlen_nonneg.
Qed.

Theorem frodo_unpack_wp D out outlen inp :
  1 <= D <= 16 -> bytes_ok inp -> zlen out = outlen ->
  wp (frodo_unpack out outlen inp (zlen inp) D) (fun r => r = unpack_spec D outlen inp).
Proof.
  intros; rewrite frodo_unpack_gen; apply gen_pack_wp; auto; try lia.
  - pose proof (pow2_le_16 D); lia.
  - subst; apply zlen_nonneg.
Qed.

(** Reading a packed stream back. *)
Lemma testbit_zsum D f t :
  0 <= t < D -> (forall u, 0 <= u < D -> 0 <= f u <= 1) ->
  Z.b2z (Z.testbit (zsum D (fun u => f u * 2 ^ (D - 1 - u))) (D - 1 - t)) = f t.
Proof.
  intros (Ht0 & Ht); assert (HD : 0 <= D) by lia; revert t Ht0 Ht.
  pattern D; apply natlike_ind; [| |exact HD]; clear D HD; [intros; lia|].
  intros D HD IH t Ht0 Ht Hf; unfold Z.succ in *; rewrite zsum_succ by lia.
  rewrite (zsum_ext D _ (fun u => 2 * (f u * 2 ^ (D - 1 - u)))).
  2:{ intros u Hu; replace (D + 1 - 1 - u) with (D - 1 - u + 1) by lia.
      rewrite Z.pow_add_r by lia; lia. }
  rewrite zsum_scale; replace (D + 1 - 1 - D) with 0 by lia; rewrite Z.pow_0_r, Z.mul_1_r.
  assert (Hfb : f D = Z.b2z (f D =? 1)).
  { specialize (Hf D ltac:(lia)); destruct (Z.eqb_spec (f D) 1); cbn; lia. }
  destruct (Z.eq_dec t D) as [->|].
  - replace (D + 1 - 1 - D) with 0 by lia; rewrite Hfb at 1.
    rewrite Z.testbit_0_r; auto.
  - replace (D + 1 - 1 - t) with (Z.succ (D - 1 - t)) by lia; rewrite Hfb.
    rewrite Z.testbit_succ_r by lia. apply IH; try lia; intros; apply Hf; lia.
Qed.

Lemma stream_bit_repack D1 D2 n l k :
  0 < D2 -> 0 <= n -> 0 <= k ->
  stream_bit D2 (repack D1 D2 n l) k = if k <? D2 * n then stream_bit D1 l k else 0.
Proof.
  intros H2 Hn Hk; destruct (Z.ltb_spec k (D2 * n)).
  - rewrite (Z.div_mod k D2) at 1 by lia.
    pose proof (Z.mod_pos_bound k D2 H2).
    rewrite stream_bit_at by lia.
    assert (0 <= k / D2 < n) by
      (split; [apply Z.div_pos; lia|apply Z.div_lt_upper_bound; lia]).
    unfold repack; rewrite znth_ztab by lia.
    rewrite (testbit_zsum D2 (fun t => stream_bit D1 l (D2 * (k / D2) + t))).
    + f_equal; rewrite <- Z.div_mod by lia; reflexivity.
    + lia.
    + intros; apply stream_bit_range.
  - apply stream_bit_end; [lia|]; unfold repack; rewrite zlen_ztab; lia.
Qed.

Lemma repack_repack D1 D2 n n' l :
  0 < D1 -> 0 < D2 -> 0 <= n -> D1 * n' <= D2 * n ->
  repack D2 D1 n' (repack D1 D2 n l) = ztab n' (fun m => znth l m mod 2 ^ D1).
Proof.
  intros H1 H2 Hn Hle; unfold repack at 1; apply ztab_ext; intros m Hm.
  rewrite <- (Z.shiftr_0_r (znth l m)), zsum_bits by lia.
  apply zsum_ext; intros t Ht.
  rewrite stream_bit_repack by nia.
  destruct (Z.ltb_spec (D1 * m + t) (D2 * n)); [|nia].
  rewrite stream_bit_at by lia; do 3 f_equal; lia.
Qed.

Lemma repack_mod D1 D2 n l :
  0 < D1 -> repack D1 D2 n (map (fun x => x mod 2 ^ D1) l) = repack D1 D2 n l.
Proof.
  intros H; unfold repack; apply ztab_ext; intros m Hm; apply zsum_ext; intros t Ht.
  f_equal; unfold stream_bit; f_equal.
  pose proof (Z.mod_pos_bound (D2 * m + t) D1 H).
  set (k := (D2 * m + t) / D1).
  destruct (Z.ltb_spec k 0); [rewrite !znth_neg by lia; reflexivity|].
  destruct (Z.ltb_spec k (zlen l)).
  - rewrite znth_map by lia. apply Z.mod_pow2_bits_low; lia.
  - rewrite !znth_out by (rewrite ?zlen_map; lia); reflexivity.
Qed.

Lemma repack_range D1 D2 n l : 0 <= D2 -> inrange (2 ^ D2) (repack D1 D2 n l).
Proof.
  intros; apply inrange_ztab; intros m Hm.
  pose proof (pb_bound D1 D2 l m D2 ltac:(lia)); unfold pb in *.
  replace (D2 - D2) with 0 in * by lia; lia.
Qed.
Lemma zlen_repack D1 D2 n l : 0 <= n -> zlen (repack D1 D2 n l) = n.
Proof. intros; unfold repack; now rewrite zlen_ztab. Qed.

(** unpack (pack l) = l mod 2^D, pack (unpack b) = b. *)
Lemma unpack_pack_spec D n outlen l :
  0 < D -> 0 <= outlen -> D * n <= 8 * outlen ->
  unpack_spec D n (pack_spec D outlen l) = ztab n (fun m => znth l m mod 2 ^ D).
Proof. intros; apply repack_repack; lia. Qed.
Lemma pack_unpack_spec D n outlen l :
  0 < D -> 0 <= n -> 8 * outlen <= D * n -> bytes_ok l -> zlen l = outlen ->
  pack_spec D outlen (unpack_spec D n l) = l.
Proof.
  intros HD Hn Hle Hl Hlen; unfold pack_spec, unpack_spec; rewrite repack_repack by lia.
  subst outlen; transitivity (ztab (zlen l) (znth l)); [|symmetry; apply zlist_ztab].
  apply ztab_ext; intros m Hm; apply Z.mod_small.
  apply (inrange_znth 256); auto.
Qed.
Lemma pack_inj D n outlen l1 l2 :
  0 < D -> 0 <= outlen -> D * n <= 8 * outlen -> inrange (2 ^ D) l1 -> inrange (2 ^ D) l2 ->
  zlen l1 = n -> zlen l2 = n -> pack_spec D outlen l1 = pack_spec D outlen l2 -> l1 = l2.
Proof.
  intros HD Ho Hle R1 R2 L1 L2 E.
  apply (f_equal (unpack_spec D n)) in E; rewrite !unpack_pack_spec in E by lia.
  assert (G : forall l, inrange (2 ^ D) l -> zlen l = n -> ztab n (fun m => znth l m mod 2 ^ D) = l).
  { intros l R <-; transitivity (ztab (zlen l) (znth l)); [|symmetry; apply zlist_ztab]; apply ztab_ext; intros m Hm.
    apply Z.mod_small; now apply inrange_znth. }
  now rewrite (G l1), (G l2) in E by assumption.
Qed.


(* ================================================================== *)
(** * Comparison, selection, clearing *)

Lemma u16_lor_lxor r x y : 0 <= r < 65536 -> 0 <= x < 65536 -> 0 <= y < 65536 ->
  0 <= Z.lor r (Z.lxor x y) < 65536.
Proof.
  intros Hr Hx Hy.
  assert (B : forall v, 0 <= v < 65536 <-> (0 <= v /\ Z.shiftr v 16 = 0)).
  { intros v; rewrite Z.shiftr_div_pow2 by lia; change (2 ^ 16) with 65536.
    split; intros H; [split; [lia|apply Z.div_small; lia]|].
    destruct H as (H & E); apply Z.div_small_iff in E; lia. }
  apply B in Hr, Hx, Hy; apply B.
  split.
  - apply Z.lor_nonneg; split; [lia|]; apply Z.lxor_nonneg; lia.
  - rewrite Z.shiftr_lor, Z.shiftr_lxor.
    destruct Hr as (_ & ->), Hx as (_ & ->), Hy as (_ & ->); reflexivity.
Qed.

Theorem ct_verify_wp a b len :
  u16s_ok a -> u16s_ok b -> 0 <= len -> len <= zlen a -> len <= zlen b ->
  wp (ct_verify a b len) (fun r =>
    (r = 0 /\ forall i, 0 <= i < len -> znth a i = znth b i) \/
    (r = -1 /\ exists i, 0 <= i < len /\ znth a i <> znth b i)).
Proof.
  intros Ha Hb Hlen La Lb; unfold ct_verify.
  apply wp_bind.
  apply (wp_for (fun i r => 0 <= r < 65536 /\
    ((r = 0 /\ forall k, 0 <= k < i -> znth a k = znth b k) \/
     (r <> 0 /\ exists k, 0 <= k < i /\ znth a k <> znth b k)))).
  - lia.
  - split; [lia|]; left; split; [reflexivity|intros; lia].
  - intros i r Hi (Hr & HI).
    pose proof (inrange_znth _ a i Ha ltac:(lia)); pose proof (inrange_znth _ b i Hb ltac:(lia)).
    apply wp_bind, wp_rd; [lia|lia|]; apply wp_bind, wp_rd; [lia|lia|].
    pose proof (u16_lor_lxor r (znth a i) (znth b i) Hr ltac:(lia) ltac:(lia)) as Hv.
    apply wp_ret; unfold u16; rewrite Z.mod_small by lia; split; [exact Hv|].
    destruct (Z.eq_dec (Z.lor r (Z.lxor (znth a i) (znth b i))) 0) as [E|E].
    + left; split; [exact E|].
      apply Z.lor_eq_0_iff in E; destruct E as (-> & E).
      apply Z.lxor_eq in E.
      intros k Hk; destruct (Z.eq_dec k i) as [->|]; [exact E|].
      destruct HI as [(_ & HI)|(HI & _)]; [apply HI; lia|congruence].
    + right; split; [exact E|].
      destruct HI as [(-> & HI)|(_ & k & Hk & HI)].
      * exists i; split; [lia|]; intros Eq; apply E; rewrite Eq, Z.lxor_nilpotent; reflexivity.
      * exists k; split; [lia|exact HI].
  - intros r (Hr & HI).
    assert (Hx : 0 <= Z.shiftr r 1 < 32768).
    { rewrite Z.shiftr_div_pow2 by lia; change (2 ^ 1) with 2; dlia. }
    assert (Hy : Z.land r 1 = r mod 2) by (apply (Z.land_ones r 1); lia).
    assert (Hy' : 0 <= r mod 2 < 2) by (apply Z.mod_pos_bound; lia).
    assert (E1 : s16 (Z.shiftr r 1) = Z.shiftr r 1).
    { unfold s16; rewrite Z.mod_small by lia; destruct (Z.ltb_spec (Z.shiftr r 1) 32768); lia. }
    assert (E2 : s16 (Z.land r 1) = r mod 2).
    { rewrite Hy; unfold s16; rewrite (Z.mod_small (r mod 2) 65536) by lia.
      destruct (Z.ltb_spec (r mod 2) 32768); lia. }
    rewrite E1, E2.
    apply wp_bind, wp_i32; [lia|]; apply wp_bind, wp_i32; [lia|].
    apply wp_bind, wp_shr32; [lia|]; apply wp_ret.
    destruct HI as [(-> & HI)|(Hne & HI)].
    + left; split; [reflexivity|exact HI].
    + right; split; [|exact HI].
      assert (Hor : -32768 <= Z.lor (- Z.shiftr r 1) (- (r mod 2)) < 0).
      { assert (Hcase : r mod 2 = 0 \/ r mod 2 = 1) by lia.
        destruct Hcase as [E0 | E0]; rewrite E0.
        - change (- 0) with 0; rewrite Z.lor_0_r.
          rewrite Z.shiftr_div_pow2 in * by lia; change (2 ^ 1) with 2 in *.
          assert (r / 2 <> 0) by dlia. lia.
        - rewrite (Z.lor_comm _ (- (1))); change (- (1)) with (-1).
          rewrite Z.lor_m1_l; lia. }
      rewrite Z.shiftr_div_pow2 by lia; change (2 ^ 15) with 32768.
      replace (Z.lor (- Z.shiftr r 1) (- (r mod 2)) / 32768) with (-1) by dlia.
      reflexivity.
Qed.

Theorem ct_select_wp r a b len sel :
  bytes_ok a -> bytes_ok b -> 0 <= len -> zlen r = len -> zlen a = len -> zlen b = len ->
  sel = 0 \/ sel = -1 ->
  wp (ct_select r a b len sel) (fun r' => r' = if sel =? 0 then a else b).
Proof.
  intros Ha Hb Hlen Lr La Lb Hsel; unfold ct_select.
  set (src := if sel =? 0 then a else b).
  assert (Ls : zlen src = len) by (unfold src; destruct (sel =? 0); auto).
  apply (wp_for (fun i r' => zlen r' = len /\ forall k, 0 <= k < i -> znth r' k = znth src k)).
  - lia.
  - split; [exact Lr|intros; lia].
  - intros i r' Hi (L & HI).
    pose proof (inrange_znth _ a i Ha ltac:(lia)); pose proof (inrange_znth _ b i Hb ltac:(lia)).
    apply wp_bind, wp_rd; [lia|lia|]; apply wp_bind, wp_rd; [lia|lia|].
    apply wp_wr; [lia|]; split; [now rewrite zlen_zset|].
    intros k Hk; rewrite znth_zset by lia.
    destruct (Z.eqb_spec i k) as [->|]; [|apply HI; lia].
    unfold src, u8; destruct Hsel as [-> | ->]; cbn [Z.eqb].
    + change (Z.lnot 0) with (-1); rewrite Z.land_m1_l, Z.land_0_l, Z.lor_0_r.
      apply Z.mod_small; lia.
    + change (Z.lnot (-1)) with 0; rewrite Z.land_m1_l, Z.land_0_l, Z.lor_0_l.
      apply Z.mod_small; lia.
  - intros r' (L & HI); apply list_ext; [congruence|]; intros; apply HI; lia.
Qed.

Theorem clear_bytes_wp mem n :
  0 <= n -> n <= zlen mem -> wp (clear_bytes mem n) (fun r => r = zsplice mem 0 (zrep n 0)).
Proof.
  intros Hn Hl; unfold clear_bytes.
  apply (wp_for (fun i r => zlen r = zlen mem /\
      forall k, 0 <= k < zlen mem -> znth r k = if k <? i then 0 else znth mem k)).
  - lia.
  - split; [reflexivity|]; intros k Hk; destruct (Z.ltb_spec k 0); [lia|reflexivity].
  - intros i r Hi (L & HI); apply wp_wr; [lia|]; split; [now rewrite zlen_zset|].
    intros k Hk; rewrite znth_zset by lia.
    destruct (Z.eqb_spec i k) as [->|].
    + destruct (Z.ltb_spec k (k + 1)); [reflexivity|lia].
    + rewrite HI by lia; destruct (Z.ltb_spec k i); destruct (Z.ltb_spec k (i + 1)); try lia; reflexivity.
  - intros r (L & HI); apply list_ext.
    + rewrite zlen_zsplice; rewrite ?zlen_zrep; lia.
    + intros k Hk; rewrite znth_zsplice by (rewrite ?zlen_zrep; lia).
      rewrite zlen_zrep, HI by lia.
      destruct (Z.leb_spec 0 k); [|lia]; cbn [andb].
      destruct (Z.ltb_spec k n); destruct (Z.ltb_spec k (0 + n)); try lia; rewrite ?znth_zrep0;
        reflexivity.
Qed.
Lemma clear_bytes_all mem n : zlen mem = n ->
  wp (clear_bytes mem n) (fun r => r = zrep n 0).
Proof.
  intros <-; eapply wp_mono; [apply clear_bytes_wp; [apply zlen_nonneg|lia]|].
  intros r ->; apply zsplice_all; rewrite zlen_zrep; auto using zlen_nonneg.
Qed.

(* ================================================================== *)
(** * Noise sampling *)

Lemma filter_length_le (p : Z -> bool) l : (length (filter p l) <= length l)%nat.
Proof. induction l as [|h t IH]; cbn; [lia|]; destruct (p h); cbn; lia. Qed.

Lemma filter_length_zsum (p : Z -> bool) l :
  Z.of_nat (length (filter p l)) = zsum (zlen l) (fun k => Z.b2z (p (znth l k))).
Proof.
  induction l as [|h t IH] using rev_ind; [reflexivity|].
  rewrite filter_app, app_length, zlen_app; cbn [filter length].
  change (zlen [h]) with 1; rewrite zsum_succ by apply zlen_nonneg.
  rewrite (zsum_ext _ _ (fun k => Z.b2z (p (znth t k)))) by (intros; now rewrite znth_app1 by lia).
  rewrite <- IH, znth_app2 by lia; rewrite Z.sub_diag, znth_cons0.
  destruct (p h); cbn [Z.b2z length]; lia.
Qed.

Lemma removelast_firstn_z (l : list Z) : removelast l = zslice l 0 (zlen l - 1).
Proof.
  unfold zslice, zlen; cbn [Z.to_nat skipn].
  rewrite removelast_firstn_len; f_equal; lia.
Qed.

Lemma sample_mag_zsum cdf r : 1 <= zlen cdf ->
  sample_mag cdf r = zsum (zlen cdf - 1) (fun k => Z.b2z (znth cdf k <? r / 2)).
Proof.
  intros H; unfold sample_mag; rewrite filter_length_zsum, removelast_firstn_z.
  rewrite zlen_zslice by lia; apply zsum_ext; intros k Hk; now rewrite znth_zslice by lia.
Qed.

Lemma sample_mag_bound cdf r : 1 <= zlen cdf -> 0 <= sample_mag cdf r <= zlen cdf - 1.
Proof.
  intros H; unfold sample_mag; split; [lia|].
  pose proof (filter_length_le (fun c => c <? r / 2) (removelast cdf)) as Hf.
  assert (E : zlen (removelast cdf) = zlen cdf - 1)
    by (rewrite removelast_firstn_z, zlen_zslice; lia).
  unfold zlen in E at 1; lia.
Qed.

Theorem frodo_sample_n_wp cdf s n :
  inrange 32768 cdf -> 1 <= zlen cdf <= 32768 -> u16s_ok s -> zlen s = n ->
  wp (frodo_sample_n cdf s n) (fun r => r = map (fun x => sample_spec cdf x mod 65536) s).
Proof.
  intros Hc Hcl Hs Hn; unfold frodo_sample_n.
  pose proof (zlen_nonneg s).
  apply (wp_for (fun i r => zlen r = n /\ forall k, 0 <= k < n ->
     znth r k = if k <? i then sample_spec cdf (znth s k) mod 65536 else znth s k)).
  - lia.
  - split; [exact Hn|]; intros k Hk; destruct (Z.ltb_spec k 0); [lia|reflexivity].
  - intros i r Hi (L & HI).
    assert (Hri : znth r i = znth s i)
      by (rewrite HI by lia; destruct (Z.ltb_spec i i); [lia|reflexivity]).
    pose proof (inrange_znth _ s i Hs ltac:(lia)) as Hv.
    apply wp_bind, wp_rd; [lia|lia|]; rewrite Hri.
    apply wp_bind, wp_shr32; [lia|].
    rewrite Z.shiftr_div_pow2 by lia; change (2 ^ 1) with 2.
    assert (Hp : 0 <= znth s i / 2 < 32768) by dlia.
    unfold u16 at 1; rewrite (Z.mod_small (znth s i / 2)) by lia.
    set (prnd := znth s i / 2) in *.
    apply wp_bind, wp_rd; [lia|lia|]; rewrite Hri.
    replace (u16 (Z.land (znth s i) 1)) with (znth s i mod 2)
      by (change 1 with (Z.ones 1); rewrite Z.land_ones by lia; unfold u16; change (2 ^ 1) with 2; dlia).
    apply wp_bind.
    eapply wp_mono with (P := fun v => v = sample_mag cdf (znth s i)).
    + rewrite sample_mag_zsum by lia; fold prnd.
      apply (wp_for (fun j v => v = zsum j (fun k => Z.b2z (znth cdf k <? prnd)))); [lia|reflexivity| |auto].
      intros j v Hj ->.
      pose proof (inrange_znth _ cdf j Hc ltac:(lia)) as Hcj.
      assert (Hzb : 0 <= zsum j (fun k => Z.b2z (znth cdf k <? prnd)) <= j).
      { clear - Hj. destruct Hj as (Hj & _); pattern j; apply natlike_ind; [| |exact Hj].
        - rewrite zsum_0; lia.
        - intros x Hx IH; unfold Z.succ; rewrite zsum_succ by lia.
          destruct (znth cdf x <? prnd); cbn [Z.b2z]; lia. }
      apply wp_bind, wp_rd; [lia|lia|].
      apply wp_bind, wp_i32; [lia|].
      apply wp_bind, wp_shr32; [lia|].
      assert (E : Z.shiftr (u16 (znth cdf j - prnd)) 15 = Z.b2z (znth cdf j <? prnd)).
      { rewrite Z.shiftr_div_pow2 by lia; change (2 ^ 15) with 32768; unfold u16.
        destruct (Z.ltb_spec (znth cdf j) prnd); cbn [Z.b2z]; dlia. }
      rewrite E.
      assert (0 <= Z.b2z (znth cdf j <? prnd) <= 1) by (destruct (_ <? _); cbn; lia).
      apply wp_bind, wp_i32; [lia|]; apply wp_ret.
      unfold u16; rewrite Z.mod_small by lia; now rewrite zsum_succ by lia.
    + intros v ->.
      pose proof (sample_mag_bound cdf (znth s i) ltac:(lia)) as Hm.
      set (m := sample_mag cdf (znth s i)) in *.
      assert (E : Z.lxor (- (znth s i mod 2)) m + znth s i mod 2 = sample_spec cdf (znth s i)).
      { unfold sample_spec; fold m.
        rewrite Zmod_even; destruct (Z.even (znth s i)).
        - change (- 0) with 0; rewrite Z.lxor_0_l; lia.
        - change (- (1)) with (-1); rewrite Z.lxor_m1_l; unfold Z.lnot; lia. }
      rewrite E.
      assert (-32768 <= sample_spec cdf (znth s i) <= 32768)
        by (unfold sample_spec; fold m; destruct (Z.even _); lia).
      apply wp_bind, wp_i32; [lia|].
      apply wp_wr; [lia|]; split; [now rewrite zlen_zset|].
      intros k Hk; rewrite znth_zset by lia.
      destruct (Z.eqb_spec i k) as [->|].
      * destruct (Z.ltb_spec k (k + 1)); [reflexivity|lia].
      * rewrite HI by lia; destruct (Z.ltb_spec k i); destruct (Z.ltb_spec k (i + 1)); try lia; reflexivity.
  - intros r (L & HI); apply list_ext; [rewrite zlen_map; congruence|].
    intros k Hk; rewrite HI by lia; rewrite znth_map by lia.
    destruct (Z.ltb_spec k n); [reflexivity|lia].
Qed.
