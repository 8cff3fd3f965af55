(** src/sha3/fips202.c, sponge level: [shake] equals SHAKE128/SHAKE256 of FIPS 202. *)
From Verif Require Import CSem Params Util UtilSpec UtilProofs Fips202 KeccakSpec KeccakProofs.

(* ================================================================== *)
(** * The permutation, as code *)

Ltac wprd := apply wp_bind, wp_rd; [ try lia | | ].

Lemma KeccakF1600_wp s : zlen s = 25 -> u64s_ok s ->
  wp (KeccakF1600_StatePermute s) (fun s' => s' = lperm s).
Proof.
  intros Hlen Hok; unfold KeccakF1600_StatePermute.
  assert (Hn : forall i, 0 <= znth s i) by (intros; apply (inrange_znth_all M64 s i); auto; reflexivity).
  do 25 (apply wp_bind, wp_rd; [lia|apply Hn|]).
  change (znth s 0, znth s 1, znth s 2, znth s 3, znth s 4, znth s 5, znth s 6, znth s 7, znth s 8,
    znth s 9, znth s 10, znth s 11, znth s 12, znth s 13, znth s 14, znth s 15, znth s 16, znth s 17,
    znth s 18, znth s 19, znth s 20, znth s 21, znth s 22, znth s 23, znth s 24) with (tup s).
  apply wp_bind.
  eapply wp_for_step with (n := 12)
    (I := fun k st => st = tup (fold_left lstep (zseq (2 * k)) s)); try lia; [reflexivity| |].
  - intros k st Hk ->; rewrite !Z.add_0_l.
    apply wp_bind, wp_rd; [change (zlen KeccakF_RoundConstants) with 24; lia|apply RC_range|].
    apply wp_bind, wp_rd; [change (zlen KeccakF_RoundConstants) with 24; lia|apply RC_range|].
    apply wp_ret.
    destruct (fold_lstep_ok (zseq (2 * k)) s Hok Hlen) as (_ & HL).
    rewrite roundA_lround by exact HL.
    rewrite roundB_lround by apply zlen_lroundl.
    f_equal.
    assert (E : zseq (2 * (k + 1)) = zseq (2 * k) ++ [2 * k; 2 * k + 1]).
    { unfold zseq. replace (Z.to_nat (2 * (k + 1))) with (Z.to_nat (2 * k) + 2)%nat by lia.
      rewrite seq_app, map_app; cbn [seq map]; f_equal; repeat f_equal; lia. }
    rewrite E, fold_left_app; cbn [fold_left]; unfold lstep.
    now rewrite !(Z.mul_comm k 2).
  - intros st ->. change (2 * 12) with 24; fold (lperm s).
    destruct (lperm_ok s Hok Hlen) as (_ & HL).
    remember (lperm s) as l eqn:El; clear El.
    clear Hn Hok.
    revert Hlen; intros Hlen; explode s Hlen; explode l HL.
    cbv -[wp]. apply wp_ok. reflexivity.
Qed.

(* ================================================================== *)
(** * Loads and stores *)

Definition byte_in (l : list Z) (o n : Z) : Prop := forall i, o <= i < o + n -> 0 <= znth l i < 256.

Lemma load64_wp m off : 0 <= off -> off + 8 <= zlen m -> byte_in m off 8 ->
  wp (load64 m off) (fun r => 0 <= r < M64 /\
    forall z, 0 <= z < 64 -> Z.testbit r z = Z.testbit (znth m (off + z / 8)) (z mod 8)).
Proof.
  intros Ho Hl Hb; unfold load64.
  eapply wp_for with (I := fun i r => 0 <= r < 2 ^ (8 * i) /\
    forall z, 0 <= z < 8 * i -> Z.testbit r z = Z.testbit (znth m (off + z / 8)) (z mod 8)).
  - lia.
  - split; [cbn; lia|intros; lia].
  - intros i r Hi (Hr & Hz).
    specialize (Hb (off + i) ltac:(lia)).
    apply wp_bind, wp_rd; [lia|lia|].
    apply wp_bind, wp_shl64; [lia|]; apply wp_ret.
    set (b := znth m (off + i)) in *.
    assert (E8 : 2 ^ (8 * (i + 1)) = 2 ^ (8 * i) * 256)
      by (replace (8 * (i + 1)) with (8 * i + 8) by lia; rewrite Z.pow_add_r by lia; reflexivity).
    assert (H64 : 2 ^ (8 * (i + 1)) <= 2 ^ 64) by (apply Z.pow_le_mono_r; lia).
    pose proof (Z.pow_pos_nonneg 2 (8 * i) ltac:(lia) ltac:(lia)) as HP.
    rewrite Z.shiftl_mul_pow2 by lia.
    unfold u64; rewrite Z.mod_small by (change 18446744073709551616 with (2 ^ 64); nia).
    split.
    + apply lor_range; [lia|nia|nia].
    + intros z Hzz; rewrite Z.lor_spec, <- Z.shiftl_mul_pow2, Z.shiftl_spec by lia.
      destruct (Z.ltb_spec z (8 * i)).
      * rewrite Hz by lia. rewrite (Z.testbit_neg_r b) by lia. apply orb_false_r.
      * rewrite (testbit_high (8 * i) r z) by lia; cbn [orb]; unfold b.
        replace (z / 8) with i by dlia. f_equal; dlia.
  - intros r (Hr & Hz); split; [rewrite M64_pow; exact Hr|intros; apply Hz; lia].
Qed.

Lemma store64_wp h off u : 0 <= off -> off + 8 <= zlen h -> 0 <= u ->
  wp (store64 h off u) (fun h' => zlen h' = zlen h /\
    forall j, znth h' j = if (off <=? j) && (j <? off + 8) then (u / 2 ^ (8 * (j - off))) mod 256 else znth h j).
Proof.
  intros Ho Hl Hu; unfold store64; apply wp_bind.
  eapply wp_for with (I := fun i '(h', v) => zlen h' = zlen h /\ v = u / 2 ^ (8 * i) /\
     forall j, znth h' j = if (off <=? j) && (j <? off + i) then (u / 2 ^ (8 * (j - off))) mod 256 else znth h j).
  - lia.
  - split; [reflexivity|split; [now rewrite Z.div_1_r|]].
    intros j; destruct (Z.leb_spec off j); destruct (Z.ltb_spec j (off + 0)); cbn [andb]; auto; lia.
  - intros i (h', v) Hi (Hh & -> & Hj).
    apply wp_bind, wp_wr; [lia|].
    apply wp_bind, wp_shr64; [lia|]; apply wp_ret.
    split; [rewrite zlen_zset; lia|split].
    + rewrite Z.shiftr_div_pow2 by lia.
      rewrite Z.div_div by (try lia; apply Z.pow_pos_nonneg; lia).
      rewrite <- Z.pow_add_r by lia; f_equal; f_equal; lia.
    + intros j; rewrite znth_zset by lia; rewrite Hj.
      destruct (Z.eqb_spec (off + i) j).
      * subst j. destruct (Z.leb_spec off (off + i)); [|lia]; destruct (Z.ltb_spec (off + i) (off + (i + 1))); [|lia].
        cbn [andb]; unfold u8; do 4 f_equal; lia.
      * destruct (Z.leb_spec off j); destruct (Z.ltb_spec j (off + i)); destruct (Z.ltb_spec j (off + (i + 1)));
          cbn [andb]; auto; lia.
  - intros (h', v) (Hh & _ & Hj); now apply wp_ret.
Qed.

(* ================================================================== *)
(** * Absorbing *)

Definition padstate (r : Z) (blk : list bool) : list bool := blk ++ zrep (1600 - 8 * r) false.

Lemma xor_loop_wp s r m off w : zlen s = 25 -> u64s_ok s -> r = 8 * w -> 0 <= w <= 25 ->
  0 <= off -> off + r <= zlen m -> byte_in m off r ->
  wp (for_ 0 (r / 8) (fun i s =>
        x <- rd s i ;; y <- load64 m (off + 8 * i) ;; wr s i (xor64 x y)) s)
     (fun s' => zlen s' = 25 /\ u64s_ok s' /\
        lanes_bits s' = xorl (lanes_bits s) (padstate r (bytes_to_bits (zslice m off r)))).
Proof.
  intros Hs Hok -> Hw Ho Hm Hb.
  replace (8 * w / 8) with w by dlia.
  assert (Hsn : forall i, 0 <= znth s i < M64) by (intros; apply (inrange_znth_all M64 s i); auto; reflexivity).
  eapply wp_for with (I := fun i s' => zlen s' = 25 /\ u64s_ok s' /\
    forall k, 0 <= k < 1600 -> Z.testbit (znth s' (k / 64)) (k mod 64) =
      xorb (Z.testbit (znth s (k / 64)) (k mod 64))
           (if k <? 64 * i then Z.testbit (znth m (off + k / 8)) (k mod 8) else false)).
  - lia.
  - split; [|split]; auto; intros k Hk; destruct (Z.ltb_spec k (64 * 0)); [lia|]; now rewrite xorb_false_r.
  - intros i s' Hi (Hs' & Hok' & Hk).
    assert (Hx : 0 <= znth s' i < M64) by (apply (inrange_znth_all M64 s' i); auto; reflexivity).
    apply wp_bind, wp_rd; [lia|lia|].
    apply wp_bind. eapply wp_mono; [apply load64_wp; [lia|lia|]|].
    { intros j Hj; apply Hb; lia. }
    intros y (Hy & Hyz); cbv beta in Hyz.
    apply wp_wr; [lia|].
    split; [now rewrite zlen_zset|split].
    + apply inrange_zset; auto; now apply xor64_range.
    + intros k Hkk; rewrite znth_zset by lia.
      specialize (Hk k Hkk).
      destruct (Z.eqb_spec i (k / 64)) as [E|E].
      * subst i; unfold xor64; rewrite Z.lxor_spec, Hk.
        destruct (Z.ltb_spec k (64 * (k / 64))); [exfalso; dlia|].
        destruct (Z.ltb_spec k (64 * (k / 64 + 1))); [|exfalso; dlia].
        rewrite xorb_false_r; f_equal.
        rewrite Hyz by (apply Z.mod_pos_bound; lia).
        f_equal; [f_equal; dlia|dlia].
      * rewrite Hk; f_equal.
        destruct (Z.ltb_spec k (64 * i)); destruct (Z.ltb_spec k (64 * (i + 1))); auto; exfalso; dlia.
  - intros s' (Hs' & Hok' & Hk); split; [|split]; auto.
    assert (HL : zlen (padstate (8 * w) (bytes_to_bits (zslice m off (8 * w)))) = 1600).
    { unfold padstate; rewrite zlen_app, zlen_zrep, zlen_bytes_to_bits, zlen_zslice; lia. }
    apply blist_ext; rewrite ?zlen_xorl, ?zlen_lanes_bits, ?HL; [reflexivity|].
    intros k Hkk; rewrite bnth_xorl by (rewrite ?zlen_lanes_bits; lia).
    unfold lanes_bits; rewrite !bnth_ztab by lia; rewrite Hk by lia; f_equal.
    unfold padstate; rewrite bnth_app by lia.
    rewrite zlen_bytes_to_bits, zlen_zslice by lia.
    destruct (Z.ltb_spec k (64 * w)); destruct (Z.ltb_spec k (8 * (8 * w))); try lia.
    + rewrite bnth_bytes_to_bits by (rewrite zlen_zslice; lia).
      rewrite znth_zslice by dlia; reflexivity.
    + now rewrite bnth_zrep.
Qed.

(** Message with the SHAKE suffix and pad10*1, byte by byte. *)
Definition padb (k : Z) : list Z := if k =? 1 then [159] else 31 :: zrep (k - 2) 0 ++ [128].
Definition padded (r : Z) (M : list Z) : list Z := M ++ padb (r - zlen M mod r).

Lemma zlen_padb k : 1 <= k -> zlen (padb k) = k.
Proof.
  intros; unfold padb; destruct (Z.eqb_spec k 1); [subst; reflexivity|].
  rewrite zlen_cons, zlen_app, zlen_zrep by lia; unfold zlen; cbn [length]; lia.
Qed.
Lemma bytes_to_bits_zrep0 n : bytes_to_bits (zrep n 0) = zrep (8 * n) false.
Proof.
  destruct (Z.ltb_spec n 0).
  - unfold zrep; replace (Z.to_nat n) with O by lia; replace (Z.to_nat (8 * n)) with O by lia; reflexivity.
  - apply blist_ext; [rewrite zlen_bytes_to_bits, !zlen_zrep; lia|].
    rewrite zlen_bytes_to_bits, zlen_zrep by lia; intros k Hk.
    rewrite bnth_bytes_to_bits by (rewrite zlen_zrep; lia).
    now rewrite znth_zrep0, bnth_zrep, Z.testbit_0_l.
Qed.
Lemma zrep_add {A} a b (v : A) : 0 <= a -> 0 <= b -> zrep (a + b) v = zrep a v ++ zrep b v.
Proof. intros; unfold zrep; rewrite Z2Nat.inj_add by lia; apply repeat_app. Qed.

Lemma padded_bits r M : 1 <= r ->
  bytes_to_bits (padded r M) =
  (bytes_to_bits M ++ [true; true; true; true]) ++
    pad10s1 (8 * r) (zlen (bytes_to_bits M ++ [true; true; true; true])).
Proof.
  intros Hr; unfold padded; rewrite bytes_to_bits_app, <- app_assoc; f_equal.
  set (k := r - zlen M mod r).
  assert (Hk : 1 <= k <= r) by (unfold k; pose proof (Z.mod_pos_bound (zlen M) r); lia).
  unfold pad10s1; rewrite zlen_app, zlen_bytes_to_bits.
  change (zlen [true; true; true; true]) with 4.
  replace ((- (8 * zlen M + 4) - 2) mod (8 * r)) with (8 * k - 6).
  2:{ pose proof (Z.div_mod (zlen M) r).
      apply Z.mod_unique with (q := - (zlen M / r) - 1); [lia|]. unfold k; lia. }
  unfold padb; destruct (Z.eqb_spec k 1) as [->|].
  - reflexivity.
  - change (31 :: zrep (k - 2) 0 ++ [128]) with ([31] ++ zrep (k - 2) 0 ++ [128]).
    rewrite !bytes_to_bits_app, bytes_to_bits_zrep0.
    replace (8 * k - 6) with (3 + (8 * (k - 2) + 7)) by lia.
    rewrite !zrep_add by lia. change (zrep 3 false) with [false; false; false].
    change (zrep 7 false) with [false; false; false; false; false; false; false].
    rewrite <- !app_assoc. reflexivity.
Qed.

Lemma skipn_skipn_add {A} n : forall m (l : list A), skipn m (skipn n l) = skipn (n + m) l.
Proof.
  induction n as [|n IH]; intros m l; [reflexivity|].
  destruct l as [|x l]; [now rewrite !skipn_nil|]. cbn [skipn Nat.add]; apply IH.
Qed.
Lemma absorb_snoc r : forall n P S,
  absorb (Datatypes.S n) r P S =
  keccak_f (xorl (absorb n r P S)
    (firstn (Z.to_nat r) (skipn (n * Z.to_nat r) P) ++ zrep (1600 - r) false)).
Proof.
  induction n as [|n IH]; intros P S; [reflexivity|].
  change (absorb (Datatypes.S (Datatypes.S n)) r P S) with
    (absorb (Datatypes.S n) r (skipn (Z.to_nat r) P)
        (keccak_f (xorl S (firstn (Z.to_nat r) P ++ zrep (1600 - r) false)))).
  rewrite IH; cbn [absorb]; do 4 f_equal.
  rewrite skipn_skipn_add; f_equal; lia.
Qed.

(** State of the sponge after absorbing the first [n] blocks of the byte string [P]. *)
Definition absorbed (n : Z) (r : Z) (P : list Z) : list bool :=
  absorb (Z.to_nat n) (8 * r) (bytes_to_bits P) (zrep 1600 false).
Lemma absorbed_succ n r P : 0 <= n -> 0 <= r -> (n + 1) * r <= zlen P ->
  absorbed (n + 1) r P =
  keccak_f (xorl (absorbed n r P) (padstate r (bytes_to_bits (zslice P (n * r) r)))).
Proof.
  intros Hn Hr HP; unfold absorbed.
  replace (Z.to_nat (n + 1)) with (S (Z.to_nat n)) by lia.
  rewrite absorb_snoc; unfold padstate; do 3 f_equal.
  replace (Z.to_nat n * Z.to_nat (8 * r))%nat with (Z.to_nat (8 * (n * r))) by (rewrite <- Z2Nat.inj_mul by lia; f_equal; lia).
  rewrite bytes_to_bits_slice by lia; reflexivity.
Qed.
Lemma zlen_absorbed n r P : 0 <= n -> 0 <= r -> n * r <= zlen P -> zlen (absorbed n r P) = 1600.
Proof.
  intros; unfold absorbed; destruct (Z.eqb_spec n 0) as [->|].
  - cbn; reflexivity.
  - replace (Z.to_nat n) with (S (Z.to_nat (n - 1))) by lia.
    rewrite absorb_snoc; apply zlen_keccak_f.
Qed.
Lemma zslice_app_l {A} (a b : list A) o n : 0 <= o -> 0 <= n -> o + n <= zlen a ->
  zslice (a ++ b) o n = zslice a o n.
Proof.
  intros; unfold zslice; rewrite skipn_app, firstn_app.
  unfold zlen in *; rewrite skipn_length.
  replace (Z.to_nat n - (length a - Z.to_nat o))%nat with O by lia.
  cbn; apply app_nil_r.
Qed.
Lemma bytes_ok_byte_in m o n : bytes_ok m -> byte_in m o n.
Proof. intros H i _; apply inrange_znth_all; auto; lia. Qed.

Lemma keccak_absorb_wp r w M :
  r = 8 * w -> 1 <= w <= 25 -> bytes_ok M ->
  wp (keccak_absorb (zrep 25 0) r M (zlen M) 31) (fun s' => zlen s' = 25 /\ u64s_ok s' /\
     keccak_f (lanes_bits s') = absorbed (zlen M / r + 1) r (padded r M)).
Proof.
  intros Hr Hw HM; unfold keccak_absorb; apply wp_bind.
  pose proof (zlen_nonneg M) as HML.
  set (nf := zlen M / r).
  assert (Hnf : zlen M = nf * r + zlen M mod r) by (unfold nf; rewrite (Z.div_mod (zlen M) r) at 1; lia).
  pose proof (Z.mod_pos_bound (zlen M) r ltac:(lia)) as Hrem.
  assert (HPL : zlen (padded r M) = (nf + 1) * r).
  { unfold padded; rewrite zlen_app, zlen_padb by lia. lia. }
  eapply wp_loop with (mu := fun '(_, mlen, _) => Z.to_nat (mlen / r))
    (I := fun '(s, mlen, moff) => exists n, 0 <= n <= nf /\ moff = n * r /\ mlen = zlen M - n * r /\
       zlen s = 25 /\ u64s_ok s /\ lanes_bits s = absorbed n r (padded r M)).
  - exists 0; split; [unfold nf; split; [lia|apply Z.div_pos; lia]|].
    split; [lia|split; [lia|split; [reflexivity|split]]].
    + apply inrange_zrep0; reflexivity.
    + unfold absorbed; cbn [Z.to_nat absorb]. apply blist_ext; [rewrite zlen_lanes_bits; reflexivity|].
      rewrite zlen_lanes_bits; intros k Hk; unfold lanes_bits; rewrite bnth_ztab by lia.
      now rewrite znth_zrep0, bnth_zrep, Z.testbit_0_l.
  - fold nf. assert (0 <= nf) by (unfold nf; apply Z.div_pos; lia). lia.
  - intros ((s, mlen), moff) (n & Hn & -> & -> & Hs & Hok & Hbits).
    apply wp_branch; intros Hc.
    + apply Z.leb_le in Hc.
      apply wp_bind. eapply wp_mono; [apply xor_loop_wp with (w := w); auto; try lia|].
      { apply bytes_ok_byte_in; auto. }
      intros s1 (Hs1 & Hok1 & Hb1).
      apply wp_bind. eapply wp_mono; [apply KeccakF1600_wp; auto|].
      intros s2 ->; apply wp_ret; cbn [fst snd].
      assert (Hn1 : n + 1 <= nf) by nia.
      split.
      * exists (n + 1); split; [lia|split; [lia|split; [lia|]]].
        destruct (lperm_ok s1 Hok1 Hs1) as (Hok2 & Hs2); split; [auto|split; auto].
        rewrite <- keccak_f_lanes by auto.
        rewrite absorbed_succ by nia.
        rewrite Hb1, Hbits; do 4 f_equal.
        unfold padded; symmetry; apply zslice_app_l; nia.
      * replace ((zlen M - n * r) / r) with ((zlen M - n * r - r) / r + 1)
          by (rewrite <- Z.div_add by lia; f_equal; lia).
        pose proof (Z.div_pos (zlen M - n * r - r) r ltac:(lia) ltac:(lia)); lia.
    + apply Z.leb_gt in Hc. apply wp_ret; cbn [fst snd].
      assert (n = nf) by nia; subst n.
      set (rem := zlen M mod r) in *.
      replace (zlen M - nf * r) with rem by lia.
      apply wp_bind.
      eapply wp_for with (I := fun i t => zlen t = 200 /\ forall j, 0 <= j < i -> znth t j = 0).
      { lia. } { split; [reflexivity|intros; lia]. }
      { intros i t Hi (Ht & Hj); apply wp_wr; [lia|]; split; [now rewrite zlen_zset|].
        intros j Hjj; rewrite znth_zset by lia; destruct (Z.eqb_spec i j); [auto|apply Hj; lia]. }
      intros t (Ht & Htz).
      apply wp_bind.
      eapply wp_for with (I := fun i t' => zlen t' = 200 /\
         forall j, 0 <= j < r -> znth t' j = if j <? i then znth M (nf * r + j) else 0).
      { lia. }
      { split; [auto|]. intros j Hj; destruct (Z.ltb_spec j 0); [lia|]; apply Htz; lia. }
      { intros i t' Hi (Ht' & Hj). apply wp_bind, wp_rd; [lia|apply inrange_znth_all with (b := 256); auto; lia|].
        apply wp_wr; [lia|]. split; [now rewrite zlen_zset|].
        intros j Hjj; rewrite znth_zset by lia. destruct (Z.eqb_spec i j).
        - subst; destruct (Z.ltb_spec j (j + 1)); [auto|lia].
        - rewrite Hj by lia. destruct (Z.ltb_spec j i); destruct (Z.ltb_spec j (i + 1)); auto; lia. }
      intros t1 (Ht1 & Ht1z).
      apply wp_bind, wp_wr; [lia|].
      assert (Hr1 : znth (zset t1 rem 31) (r - 1) = if rem =? r - 1 then 31 else 0).
      { rewrite znth_zset by lia. destruct (Z.eqb_spec rem (r - 1)); auto.
        rewrite Ht1z by lia. destruct (Z.ltb_spec (r - 1) rem); [lia|reflexivity]. }
      apply wp_bind, wp_rd; [rewrite zlen_zset; lia|rewrite Hr1; destruct (rem =? r - 1); lia|].
      rewrite Hr1.
      apply wp_bind, wp_wr; [rewrite zlen_zset; lia|].
      set (t2 := zset (zset t1 rem 31) (r - 1) (u8 (Z.lor (if rem =? r - 1 then 31 else 0) 128))).
      assert (Ht2 : zlen t2 = 200) by (unfold t2; rewrite !zlen_zset; auto).
      assert (Hsl : zslice t2 0 r = zslice (padded r M) (nf * r) r).
      { apply list_ext; [rewrite !zlen_zslice; lia|].
        rewrite zlen_zslice by lia; intros i Hi; rewrite !znth_zslice by lia.
        rewrite Z.add_0_l; unfold t2; rewrite znth_zset by (rewrite zlen_zset; lia).
        rewrite znth_zset, Ht1z by lia.
        unfold padded; rewrite znth_app; fold rem.
        destruct (Z.ltb_spec (nf * r + i) (zlen M)).
        - destruct (Z.eqb_spec (r - 1) i); [lia|]; destruct (Z.eqb_spec rem i); [lia|].
          destruct (Z.ltb_spec i rem); [auto|lia].
        - replace (nf * r + i - zlen M) with (i - rem) by lia.
          unfold padb; destruct (Z.eqb_spec (r - rem) 1).
          + destruct (Z.eqb_spec (r - 1) i); [|lia]. destruct (Z.eqb_spec rem (r - 1)); [|lia].
            replace (i - rem) with 0 by lia; reflexivity.
          + destruct (Z.eqb_spec rem (r - 1)); [lia|].
            destruct (Z.eqb_spec (r - 1) i).
            * rewrite znth_consS, znth_app2 by (rewrite ?zlen_zrep; lia).
              rewrite zlen_zrep by lia. replace (i - rem - 1 - (r - rem - 2)) with 0 by lia. reflexivity.
            * destruct (Z.eqb_spec rem i).
              -- replace (i - rem) with 0 by lia; reflexivity.
              -- rewrite znth_consS by lia. rewrite znth_app1 by (rewrite zlen_zrep; lia).
                 rewrite znth_zrep0. destruct (Z.ltb_spec i rem); [lia|reflexivity]. }
      assert (Hpb : bytes_ok (padded r M)).
      { apply inrange_app; auto. unfold padb; fold rem; destruct (r - rem =? 1); [constructor; [lia|constructor]|].
        constructor; [lia|]. apply inrange_app; [apply inrange_zrep0; lia|constructor; [lia|constructor]]. }
      eapply wp_mono.
      { refine (xor_loop_wp s r t2 0 w _ _ _ _ _ _ _); auto; try lia.
        intros j Hj. replace j with (0 + j) by lia. rewrite <- (znth_zslice t2 0 r j) by lia.
        rewrite Hsl. apply inrange_znth_all; [lia|]. now apply inrange_zslice. }
      intros s1 (Hs1 & Hok1 & Hb1); split; [auto|split; auto].
      rewrite Hb1, Hsl, Hbits. symmetry; apply absorbed_succ; nia.
Qed.

(* ================================================================== *)
(** * Squeezing *)

Definition Kbyte (S : list bool) (i : Z) : Z := zsum 8 (fun t => bit_at S (8 * i + t) * 2 ^ t).

Lemma bit_at_bnth S k : bit_at S k = Z.b2z (bnth S k).
Proof. reflexivity. Qed.
Lemma byte_bits v : 0 <= v -> v mod 256 = zsum 8 (fun t => Z.b2z (Z.testbit v t) * 2 ^ t).
Proof.
  intros Hv; pose proof (zsum_bits 8 ltac:(lia) v 0 ltac:(lia)) as H.
  rewrite Z.shiftr_0_r in H; change (2 ^ 8) with 256 in H; rewrite H; clear.
  unfold zsum; change (Z.to_nat 8) with 8%nat; cbn [sumn Z.of_nat Pos.of_succ_nat Pos.succ].
  change (0 + 8 - 1 - 0) with 7; change (0 + 8 - 1 - 1) with 6; change (0 + 8 - 1 - 2) with 5;
  change (0 + 8 - 1 - 3) with 4; change (0 + 8 - 1 - 4) with 3; change (0 + 8 - 1 - 5) with 2;
  change (0 + 8 - 1 - 6) with 1; change (0 + 8 - 1 - 7) with 0.
  change (8 - 1 - 0) with 7; change (8 - 1 - 1) with 6; change (8 - 1 - 2) with 5;
  change (8 - 1 - 3) with 4; change (8 - 1 - 4) with 3; change (8 - 1 - 5) with 2;
  change (8 - 1 - 6) with 1; change (8 - 1 - 7) with 0. lia.
Qed.
Lemma Kbyte_lanes s i : u64s_ok s -> 0 <= i < 200 ->
  Kbyte (lanes_bits s) i = (znth s (i / 8) / 2 ^ (8 * (i mod 8))) mod 256.
Proof.
  intros Hs Hi.
  assert (Hx : 0 <= znth s (i / 8) < M64) by (apply (inrange_znth_all M64); auto; reflexivity).
  rewrite byte_bits by (apply Z.div_pos; [lia|apply Z.pow_pos_nonneg; dlia]).
  apply zsum_ext; intros t Ht; f_equal; rewrite bit_at_bnth; f_equal.
  unfold lanes_bits; rewrite bnth_ztab by lia.
  rewrite <- Z.shiftr_div_pow2, Z.shiftr_spec by dlia.
  f_equal; [f_equal; dlia|dlia].
Qed.

Lemma iter_succ {A} (f : A -> A) n : forall x, iter (S n) f x = f (iter n f x).
Proof. induction n as [|n IH]; intros x; [reflexivity|]. cbn [iter] in *; apply IH. Qed.

(** The i-th output byte of the sponge with state S after absorbing. *)
Definition xof_byte (r : Z) (S : list bool) (i : Z) : Z :=
  Kbyte (iter (Z.to_nat (i / r)) keccak_f S) (i mod r).

Lemma zlen_squeeze n : forall r S, 0 <= r <= 1600 -> zlen S = 1600 ->
  zlen (squeeze n r S) = Z.of_nat n * r.
Proof.
  induction n as [|n IH]; intros r S Hr HS; [reflexivity|].
  cbn [squeeze]; rewrite zlen_app, IH by (auto using zlen_keccak_f).
  unfold zlen in *; rewrite firstn_length; lia.
Qed.
Lemma bnth_squeeze n : forall r S k, 0 < r <= 1600 -> zlen S = 1600 -> 0 <= k < Z.of_nat n * r ->
  bnth (squeeze n r S) k = bnth (iter (Z.to_nat (k / r)) keccak_f S) (k mod r).
Proof.
  induction n as [|n IH]; intros r S k Hr HS Hk; [lia|].
  cbn [squeeze]; rewrite bnth_app by lia.
  assert (HF : zlen (firstn (Z.to_nat r) S) = r) by (unfold zlen in *; rewrite firstn_length; lia).
  rewrite HF; destruct (Z.ltb_spec k r).
  - rewrite bnth_firstn by lia. rewrite Z.div_small, Z.mod_small by lia; reflexivity.
  - rewrite IH by (auto using zlen_keccak_f; lia).
    assert (E : k / r = (k - r) / r + 1) by (rewrite <- Z.div_add by lia; f_equal; lia).
    pose proof (Z.div_pos (k - r) r ltac:(lia) ltac:(lia)).
    rewrite E. replace (Z.to_nat ((k - r) / r + 1)) with (Datatypes.S (Z.to_nat ((k - r) / r))) by lia.
    cbn [iter]; f_equal.
    replace k with ((k - r) + 1 * r) at 2 by lia. now rewrite Z.mod_add by lia.
Qed.

Lemma squeezeblocks_wp h n s r w S : r = 8 * w -> 1 <= w <= 25 -> 0 <= n -> n * r <= zlen h ->
  zlen s = 25 -> u64s_ok s -> keccak_f (lanes_bits s) = S ->
  wp (keccak_squeezeblocks h n s r) (fun '(h', s') =>
    zlen h' = zlen h /\
    (forall j, 0 <= j -> znth h' j = if j <? n * r then xof_byte r S j else znth h j) /\
    zlen s' = 25 /\ u64s_ok s' /\ keccak_f (lanes_bits s') = iter (Z.to_nat n) keccak_f S).
Proof.
  intros Hr Hw Hn Hh Hs Hok HS; unfold keccak_squeezeblocks; apply wp_bind.
  eapply wp_loop with (mu := fun '(_, _, nb, _) => Z.to_nat nb)
    (I := fun '(h', s', nb, hoff) => exists k, 0 <= k <= n /\ nb = n - k /\ hoff = k * r /\
      zlen h' = zlen h /\
      (forall j, 0 <= j -> znth h' j = if j <? k * r then xof_byte r S j else znth h j) /\
      zlen s' = 25 /\ u64s_ok s' /\ keccak_f (lanes_bits s') = iter (Z.to_nat k) keccak_f S).
  - exists 0; repeat split; auto; try lia.
    intros j Hj; destruct (Z.ltb_spec j (0 * r)); [lia|reflexivity].
  - lia.
  - intros (((h', s'), nb), hoff) (k & Hk & -> & -> & Hh' & Hj & Hs' & Hok' & Hf).
    apply wp_branch; intros Hc; [apply Z.ltb_lt in Hc|apply Z.ltb_ge in Hc].
    + apply wp_bind. eapply wp_mono; [apply KeccakF1600_wp; auto|]; intros s1 ->.
      destruct (lperm_ok s' Hok' Hs') as (Hok1 & Hs1).
      assert (Hb1 : lanes_bits (lperm s') = iter (Z.to_nat k) keccak_f S)
        by (rewrite <- keccak_f_lanes by auto; exact Hf).
      assert (Hkr : k * r + r <= n * r) by nia.
      apply wp_bind.
      rewrite Z.shiftr_div_pow2 by lia. replace (r / 2 ^ 3) with w by (change (2 ^ 3) with 8; dlia).
      eapply wp_for with (I := fun i h1 => zlen h1 = zlen h /\
        forall j, 0 <= j -> znth h1 j = if j <? k * r + 8 * i then xof_byte r S j else znth h j).
      * lia.
      * split; auto. intros j Hjj; rewrite Z.mul_0_r, Z.add_0_r; auto.
      * intros i h1 Hi (Hh1 & Hj1).
        assert (0 <= znth (lperm s') i < M64) by (apply (inrange_znth_all M64); auto; reflexivity).
        apply wp_bind, wp_rd; [lia|lia|].
        eapply wp_mono; [apply store64_wp; lia|].
        intros h2 (Hh2 & Hj2); split; [lia|]; intros j Hjj; rewrite Hj2, Hj1 by lia.
        destruct (Z.leb_spec (k * r + 8 * i) j); destruct (Z.ltb_spec j (k * r + 8 * i + 8));
          destruct (Z.ltb_spec j (k * r + 8 * i)); destruct (Z.ltb_spec j (k * r + 8 * (i + 1)));
          cbn [andb]; auto; try lia.
        unfold xof_byte.
        assert (Ej : j / r = k) by (symmetry; apply Z.div_unique with (r := j - k * r); lia).
        assert (Em : j mod r = j - k * r) by (rewrite Z.mod_eq, Ej by lia; lia).
        rewrite Ej, Em, <- Hb1, Kbyte_lanes by (auto; lia).
        replace ((j - k * r) / 8) with i by dlia. do 4 f_equal. dlia.
      * intros h1 (Hh1 & Hj1); apply wp_ret; cbn [fst snd]; split; [|lia].
        exists (k + 1); split; [lia|split; [lia|split; [lia|split; [auto|split]]]].
        -- intros j Hjj; rewrite Hj1 by auto. replace (k * r + 8 * w) with ((k + 1) * r) by lia; reflexivity.
        -- split; [auto|split; auto].
           replace (Z.to_nat (k + 1)) with (Datatypes.S (Z.to_nat k)) by lia.
           now rewrite iter_succ, Hb1.
    + apply wp_ret; cbn [fst snd]. assert (k = n) by lia; subst k. apply wp_ret; auto.
Qed.

(* ================================================================== *)
(** * SHAKE *)

Definition SHAKE_r (r : Z) (M : list Z) (n : Z) : list Z :=
  bits_to_bytes n (KECCAK (1600 - 8 * r) (bytes_to_bits M ++ [true; true; true; true]) (8 * n)).
Lemma SHAKE128_r : SHAKE128 = SHAKE_r 168. Proof. reflexivity. Qed.
Lemma SHAKE256_r : SHAKE256 = SHAKE_r 136. Proof. reflexivity. Qed.

Definition shake_state (r : Z) (M : list Z) : list bool := absorbed (zlen M / r + 1) r (padded r M).
Lemma zlen_padded r M : 1 <= r -> zlen (padded r M) = (zlen M / r + 1) * r.
Proof.
  intros; unfold padded; pose proof (Z.mod_pos_bound (zlen M) r ltac:(lia)).
  rewrite zlen_app, zlen_padb by lia. pose proof (Z.div_mod (zlen M) r ltac:(lia)). lia.
Qed.

Lemma SHAKE_r_bytes r M n : 0 < r <= 200 -> 0 <= n -> bytes_ok M ->
  SHAKE_r r M n = ztab n (xof_byte r (shake_state r M)).
Proof.
  intros Hr Hn HM; unfold SHAKE_r, bits_to_bytes; apply ztab_ext; intros i Hi.
  unfold xof_byte, Kbyte; apply zsum_ext; intros t Ht; f_equal.
  rewrite !bit_at_bnth; f_equal.
  unfold KECCAK, sponge.
  replace (1600 - (1600 - 8 * r)) with (8 * r) by lia.
  rewrite <- padded_bits by lia.
  rewrite bnth_firstn by lia.
  rewrite zlen_bytes_to_bits, zlen_padded by lia.
  replace (8 * ((zlen M / r + 1) * r) / (8 * r)) with (zlen M / r + 1)
    by (replace (8 * ((zlen M / r + 1) * r)) with ((zlen M / r + 1) * (8 * r)) by lia; now rewrite Z.div_mul by lia).
  fold (absorbed (zlen M / r + 1) r (padded r M)). fold (shake_state r M).
  assert (HS : zlen (shake_state r M) = 1600).
  { apply zlen_absorbed; [pose proof (zlen_nonneg M); pose proof (Z.div_pos (zlen M) r); lia|lia|].
    rewrite zlen_padded; lia. }
  set (nb := (8 * n + 8 * r - 1) / (8 * r)).
  assert (Hnb : 8 * n <= nb * (8 * r)).
  { unfold nb. pose proof (Z.div_mod (8 * n + 8 * r - 1) (8 * r) ltac:(lia)).
    pose proof (Z.mod_pos_bound (8 * n + 8 * r - 1) (8 * r) ltac:(lia)). lia. }
  assert (0 <= nb) by (unfold nb; apply Z.div_pos; lia).
  rewrite bnth_squeeze by lia.
  assert (E1 : (8 * i + t) / (8 * r) = i / r).
  { rewrite <- Z.div_div by lia. f_equal. dlia. }
  rewrite E1; f_equal.
  rewrite Z.mod_eq, E1, Z.mod_eq by lia. lia.
Qed.

Lemma shake_wp r out outlen inp :
  r = 168 \/ r = 136 -> zlen out = outlen -> bytes_ok inp ->
  wp (shake r out outlen inp (zlen inp)) (fun o => o = SHAKE_r r inp outlen).
Proof.
  intros Hr Ho Hi; unfold shake.
  pose proof (zlen_nonneg out) as Hol.
  assert (Hr8 : exists w, r = 8 * w /\ 1 <= w <= 25)
    by (destruct Hr; subst r; [exists 21|exists 17]; lia).
  destruct Hr8 as (w & Hrw & Hw).
  apply wp_bind.
  eapply wp_mono with (P := fun s => s = zrep 25 0).
  { destruct (r =? 168); [now apply wp_ret|].
    eapply wp_for with (I := fun i s => zlen s = 25 /\ forall j, 0 <= j < i -> znth s j = 0).
    - lia.
    - split; [reflexivity|intros; lia].
    - intros i s Hi' (Hs & Hj); apply wp_wr; [lia|]; split; [now rewrite zlen_zset|].
      intros j Hjj; rewrite znth_zset by lia; destruct (Z.eqb_spec i j); [auto|apply Hj; lia].
    - intros s (Hs & Hj); apply list_ext; [rewrite zlen_zrep; lia|].
      intros i Hi'; rewrite znth_zrep0; apply Hj; lia. }
  intros s0 ->.
  apply wp_bind. eapply wp_mono; [apply (keccak_absorb_wp r w inp); auto|].
  intros s (Hs & Hok & Hf).
  set (S := absorbed (zlen inp / r + 1) r (padded r inp)) in *.
  set (nb := outlen / r).
  assert (Hnb : outlen = nb * r + outlen mod r) by (unfold nb; rewrite (Z.div_mod outlen r) at 1; lia).
  pose proof (Z.mod_pos_bound outlen r ltac:(lia)) as Hrem.
  assert (0 <= nb) by (unfold nb; apply Z.div_pos; lia).
  apply wp_bind. eapply wp_mono; [apply (squeezeblocks_wp out nb s r w S); auto; lia|].
  intros (out1, s1) (Ho1 & Hj1 & Hs1 & Hok1 & Hf1).
  rewrite SHAKE_r_bytes by (auto; lia). fold S.
  apply wp_branch; intros Hc.
  - apply wp_bind. eapply wp_mono; [apply (squeezeblocks_wp (uninit r) 1 s1 r w); eauto; try lia|].
    { unfold uninit; rewrite zlen_zrep; lia. }
    intros (t, s2) (Ht & Htj & _).
    unfold uninit in Ht; rewrite zlen_zrep in Ht by lia.
    assert (Hx : forall i, 0 <= i < r -> znth t i = xof_byte r S (nb * r + i)).
    { intros i Hii; rewrite Htj by lia. destruct (Z.ltb_spec i (1 * r)); [|lia].
      unfold xof_byte. rewrite Z.div_small, Z.mod_small by lia.
      replace ((nb * r + i) / r) with nb by (apply Z.div_unique with (r := i); lia).
      replace ((nb * r + i) mod r) with i by (apply Z.mod_unique with (q := nb); lia).
      reflexivity. }
    eapply wp_for with (I := fun i o => zlen o = outlen /\
      forall j, 0 <= j < nb * r + i -> znth o j = xof_byte r S j).
    + lia.
    + split; [lia|]. intros j Hj; rewrite Hj1 by lia. destruct (Z.ltb_spec j (nb * r)); [auto|lia].
    + intros i o Hii (Hoo & Hj).
      assert (0 <= znth t i).
      { rewrite Hx by lia. unfold xof_byte, Kbyte.
        unfold zsum; change (Z.to_nat 8) with 8%nat; cbn [sumn Z.of_nat Pos.of_succ_nat Pos.succ].
        assert (forall k, 0 <= bit_at (iter (Z.to_nat ((nb * r + i) / r)) keccak_f S) k)
          by (intros; rewrite bit_at_bnth; destruct (bnth _ _); cbn; lia).
        repeat apply Z.add_nonneg_nonneg; try lia; apply Z.mul_nonneg_nonneg; try apply H0; cbn; lia. }
      apply wp_bind, wp_rd; [lia|lia|]. apply wp_wr; [lia|].
      split; [now rewrite zlen_zset|]. intros j Hjj; rewrite znth_zset by lia.
      destruct (Z.eqb_spec (nb * r + i) j); [subst j; apply Hx; lia|apply Hj; lia].
    + intros o (Hoo & Hj).
      apply list_ext; [rewrite zlen_ztab; lia|].
      intros j Hjj; rewrite znth_ztab by lia. apply Hj; lia.
  - apply negb_false_iff, Z.eqb_eq in Hc. apply wp_ret.
    apply list_ext; [rewrite zlen_ztab; lia|].
    intros j Hjj; rewrite znth_ztab, Hj1 by lia.
    destruct (Z.ltb_spec j (nb * r)); [auto|lia].
Qed.

Lemma Kbyte_range S i : 0 <= Kbyte S i < 256.
Proof.
  unfold Kbyte, zsum; change (Z.to_nat 8) with 8%nat; cbn [sumn Z.of_nat Pos.of_succ_nat Pos.succ].
  assert (H : forall k, 0 <= bit_at S k <= 1) by (intros; rewrite bit_at_bnth; destruct (bnth _ _); cbn; lia).
  pose proof (H (8 * i + 0)); pose proof (H (8 * i + 1)); pose proof (H (8 * i + 2)); pose proof (H (8 * i + 3));
  pose proof (H (8 * i + 4)); pose proof (H (8 * i + 5)); pose proof (H (8 * i + 6)); pose proof (H (8 * i + 7)).
  change (2 ^ 0) with 1; change (2 ^ 1) with 2; change (2 ^ 2) with 4; change (2 ^ 3) with 8;
  change (2 ^ 4) with 16; change (2 ^ 5) with 32; change (2 ^ 6) with 64; change (2 ^ 7) with 128. lia.
Qed.
Lemma zlen_SHAKE_r r M n : 0 <= n -> zlen (SHAKE_r r M n) = n.
Proof. intros; apply zlen_ztab; auto. Qed.
Lemma SHAKE_r_ok r M n : bytes_ok (SHAKE_r r M n).
Proof. apply inrange_ztab; intros; apply Kbyte_range. Qed.
(** Shorter outputs are prefixes of longer ones. *)
Lemma SHAKE_r_prefix r M n m : 0 < r <= 200 -> bytes_ok M -> 0 <= n <= m ->
  SHAKE_r r M n = zslice (SHAKE_r r M m) 0 n.
Proof.
  intros Hr HM H. rewrite !SHAKE_r_bytes by (auto; lia).
  apply list_ext; rewrite ?zlen_zslice, ?zlen_ztab by (rewrite ?zlen_ztab; lia); [reflexivity|].
  intros i Hi; rewrite znth_zslice, !znth_ztab by lia; reflexivity.
Qed.
