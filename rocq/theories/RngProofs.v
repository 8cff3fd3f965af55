(** tests/rng.c refines CTR_DRBG (DrbgSpec.v). *)
From Verif Require Import CSem Params Aes AesSpec AesProofs AesProofs2 PropAes DrbgSpec Rng.

(* ------------------------------------------------------------------ *)
(** ** The counter as an integer *)
Lemma zlen_be128 v : zlen (be128 v) = 16. Proof. apply zlen_ztab; lia. Qed.
Lemma be128_ok v : bytes_ok (be128 v).
Proof. apply inrange_ztab; intros; apply Z.mod_pos_bound; lia. Qed.
Lemma p8 k : 0 <= k -> 2 ^ (8 * (k + 1)) = 2 ^ (8 * k) * 256.
Proof. intros; replace (8 * (k + 1)) with (8 * k + 8) by lia. rewrite Z.pow_add_r by lia. reflexivity. Qed.
Lemma p8pos k : 0 <= k -> 0 < 2 ^ (8 * k). Proof. intros; apply Z.pow_pos_nonneg; lia. Qed.
Lemma mod_p8_succ v k : 0 <= k -> v mod 2 ^ (8 * (k + 1)) = v mod 2 ^ (8 * k) + 2 ^ (8 * k) * ((v / 2 ^ (8 * k)) mod 256).
Proof. intros; rewrite p8 by lia. apply Z.rem_mul_r; [pose proof (p8pos k); lia|lia]. Qed.

(** v + 1 when the low k bytes are all 255 and the next one is not *)
Lemma carry v k i : 0 <= k <= 15 -> 0 <= i < 16 -> v mod 2 ^ (8 * k) = 2 ^ (8 * k) - 1 ->
  (v / 2 ^ (8 * k)) mod 256 <> 255 ->
  ((v + 1) / 2 ^ (8 * (15 - i))) mod 256 =
  (if i <? 15 - k then (v / 2 ^ (8 * (15 - i))) mod 256
   else if i =? 15 - k then (v / 2 ^ (8 * k)) mod 256 + 1 else 0).
Proof.
  intros Hk Hi Hm Hn. pose proof (p8pos k ltac:(lia)) as Hp. set (p := 2 ^ (8 * k)) in *. set (w := v / p) in *.
  assert (Ev : v + 1 = (w + 1) * p). { pose proof (Z.div_mod v p ltac:(lia)). fold w in H. lia. }
  assert (Hw : (w + 1) / 256 = w / 256) by dlia.
  destruct (Z.ltb_spec i (15 - k)).
  - set (m := 15 - i - k - 1). assert (Hm0 : 0 <= m) by (unfold m; lia).
    replace (2 ^ (8 * (15 - i))) with (p * (256 * 2 ^ (8 * m))).
    2:{ unfold p. change 256 with (2 ^ 8). rewrite <- !Z.pow_add_r by lia. f_equal. unfold m; lia. }
    pose proof (p8pos m Hm0).
    rewrite <- !Z.div_div by lia. fold w. rewrite Ev, Z.div_mul by lia. rewrite Hw. reflexivity.
  - destruct (Z.eqb_spec i (15 - k)).
    + replace (15 - i) with k by lia. fold p w. rewrite Ev, Z.div_mul by lia. clear - Hn. dlia.
    + replace p with (2 ^ (8 * (15 - i)) * (256 * 2 ^ (8 * (k - 1 - (15 - i))))) in Ev.
      2:{ unfold p. change 256 with (2 ^ 8). rewrite <- !Z.pow_add_r by lia. f_equal. lia. }
      pose proof (p8pos (15 - i) ltac:(lia)).
      rewrite Ev. set (x := 2 ^ (8 * (15 - i))) in *. set (y := 2 ^ (8 * (k - 1 - (15 - i)))).
      replace ((w + 1) * (x * (256 * y))) with ((w + 1) * y * 256 * x) by lia.
      rewrite Z.div_mul by lia. apply Z.mod_mul; lia.
Qed.
Lemma be128_mod v : be128 (v mod 2 ^ 128) = be128 v.
Proof.
  apply ztab_ext; intros i Hi.
  pose proof (p8pos (15 - i) ltac:(lia)).
  replace (2 ^ 128) with (2 ^ (8 * (15 - i)) * 2 ^ (8 * (i + 1))) by (rewrite <- Z.pow_add_r by lia; f_equal; lia).
  rewrite Z.rem_mul_r by (pose proof (p8pos (i + 1)); lia).
  rewrite (Z.mul_comm (2 ^ (8 * (15 - i)))), Z.div_add by lia.
  rewrite (Z.div_small (v mod _)) by (apply Z.mod_pos_bound; lia). rewrite Z.add_0_l.
  rewrite p8 by lia. rewrite (Z.mul_comm _ 256), Z.rem_mul_r by (pose proof (p8pos i); lia).
  rewrite (Z.mul_comm 256), Z.mod_add, Z.mod_mod by lia. reflexivity.
Qed.
Lemma increment_wp v : 0 <= v < 2 ^ 128 -> wp (increment (be128 v)) (fun V => V = be128 ((v + 1) mod 2 ^ 128)).
Proof.
  intros Hv. rewrite be128_mod. unfold increment. apply wp_bind.
  apply wp_loop with (I := fun '(V, j) => -1 <= j <= 15 /\ v mod 2 ^ (8 * (15 - j)) = 2 ^ (8 * (15 - j)) - 1 /\
      V = ztab 16 (fun i => if i <=? j then znth (be128 v) i else 0))
    (mu := fun '(V, j) => Z.to_nat (j + 1)).
  - split; [lia|]. split; [cbn; apply Z.mod_1_r|]. apply ztab_ext. intros i Hi. destruct (Z.leb_spec i 15); [|lia].
    unfold be128. rewrite znth_ztab by lia. reflexivity.
  - cbn. lia.
  - intros [V j] (Hj & Hm & ->). destruct (Z.leb_spec 0 j).
    + assert (Ej : znth (ztab 16 (fun i => if i <=? j then znth (be128 v) i else 0)) j = (v / 2 ^ (8 * (15 - j))) mod 256).
      { rewrite znth_ztab by lia. destruct (Z.leb_spec j j); [|lia]. unfold be128. rewrite znth_ztab by lia. reflexivity. }
      apply wp_bind, wp_rd; rewrite ?Ej; [rewrite zlen_ztab; lia|apply Z.mod_pos_bound; lia|].
      apply wp_branch; intros Hb.
      * apply Z.eqb_eq in Hb. apply wp_bind, wp_wr; [rewrite zlen_ztab; lia|]. apply wp_ret. cbn [fst snd]. split; [|lia].
        split; [lia|]. split.
        { replace (15 - (j - 1)) with (15 - j + 1) by lia. rewrite mod_p8_succ, Hm, Hb by lia. rewrite p8 by lia. lia. }
        apply list_ext; [rewrite zlen_zset, !zlen_ztab; lia|]. rewrite zlen_zset, zlen_ztab by lia. intros i Hi.
        rewrite znth_zset, !znth_ztab by (rewrite ?zlen_ztab; lia).
        destruct (Z.eqb_spec j i), (Z.leb_spec i (j - 1)), (Z.leb_spec i j); try lia; reflexivity.
      * apply Z.eqb_neq in Hb. apply wp_bind, wp_wr; [rewrite zlen_ztab; lia|]. apply wp_ret. cbn [fst snd].
        apply wp_ret. apply list_ext; [rewrite zlen_zset, zlen_be128, zlen_ztab; lia|]. rewrite zlen_zset, zlen_ztab by lia. intros i Hi.
        rewrite znth_zset, znth_ztab by (rewrite ?zlen_ztab; lia). unfold be128 at 2. rewrite znth_ztab by lia.
        rewrite (carry v (15 - j)) by (auto; lia). replace (15 - (15 - j)) with j by lia.
        pose proof (Z.mod_pos_bound (v / 2 ^ (8 * (15 - j))) 256 ltac:(lia)).
        rewrite (Z.eqb_sym i j). destruct (Z.eqb_spec j i), (Z.ltb_spec i j), (Z.leb_spec i j); try lia.
        -- unfold u8. apply Z.mod_small. lia.
        -- unfold be128. rewrite znth_ztab by lia. reflexivity.
    + apply wp_ret. cbn [fst snd]. apply wp_ret. assert (j = -1) by lia. subst j.
      change (8 * (15 - -1)) with 128 in Hm. rewrite Z.mod_small in Hm by lia. subst v. vm_compute. reflexivity.
Qed.

Lemma int_of_be_be128_aux (l : list Z) : forall a, fold_left (fun a x => 256 * a + x) l a = a * 2 ^ (8 * zlen l) + fold_left (fun a x => 256 * a + x) l 0.
Proof.
  induction l as [|x l IH]; intros a; cbn [fold_left]; [change (zlen (@nil Z)) with 0; cbn; lia|].
  rewrite IH, (IH (256 * 0 + x)). assert (E : zlen (x :: l) = zlen l + 1) by (unfold zlen; cbn [length]; lia).
  rewrite E, p8 by apply zlen_nonneg. lia.
Qed.
Lemma int_of_be_range l : bytes_ok l -> 0 <= int_of_be l < 2 ^ (8 * zlen l).
Proof.
  unfold int_of_be. induction l as [|x l IH]; intros H; cbn [fold_left]; [change (zlen (@nil Z)) with 0; cbn; lia|].
  rewrite int_of_be_be128_aux. assert (E : zlen (x :: l) = zlen l + 1) by (unfold zlen; cbn [length]; lia).
  rewrite E, p8 by apply zlen_nonneg. inversion H; subst. specialize (IH H3). pose proof (p8pos (zlen l) (zlen_nonneg l)).
  set (p := 2 ^ (8 * zlen l)) in *. assert (x * p <= 255 * p) by (apply Z.mul_le_mono_nonneg_r; lia).
  assert (0 <= x * p) by (apply Z.mul_nonneg_nonneg; lia). lia.
Qed.
Lemma be_byte l i : bytes_ok l -> 0 <= i < zlen l -> (int_of_be l / 2 ^ (8 * (zlen l - 1 - i))) mod 256 = znth l i.
Proof.
  revert i. induction l as [|x l IH]; intros i H Hi; [change (zlen (@nil Z)) with 0 in Hi; lia|].
  unfold int_of_be in *. cbn [fold_left]. rewrite int_of_be_be128_aux. replace (256 * 0 + x) with x by lia.
  assert (E : zlen (x :: l) = zlen l + 1) by (unfold zlen; cbn [length]; lia). rewrite E in *. inversion H; subst.
  pose proof (int_of_be_range l H3) as HR. unfold int_of_be in HR.
  destruct (Z.eq_dec i 0) as [->|].
  - replace (zlen l + 1 - 1 - 0) with (zlen l) by lia. rewrite Z.div_add_l, Z.div_small by (pose proof (p8pos (zlen l) (zlen_nonneg l)); lia).
    rewrite Z.add_0_r, Z.mod_small by lia. reflexivity.
  - replace (znth (x :: l) i) with (znth l (i - 1)).
    2:{ unfold znth. destruct (Z.ltb_spec i 0), (Z.ltb_spec (i - 1) 0); try lia. replace (Z.to_nat i) with (S (Z.to_nat (i - 1))) by lia. reflexivity. }
    rewrite <- (IH (i - 1)) by (auto; lia). replace (zlen l + 1 - 1 - i) with (zlen l - 1 - (i - 1)) by lia.
    set (k := zlen l - 1 - (i - 1)). replace (2 ^ (8 * zlen l)) with (2 ^ (8 * (i - 1)) * 256 * 2 ^ (8 * k)).
    2:{ change 256 with (2 ^ 8). rewrite <- !Z.pow_add_r by (unfold k; lia). f_equal. unfold k; lia. }
    rewrite Z.mul_assoc, Z.div_add_l by (pose proof (p8pos k ltac:(unfold k; lia)); lia).
    rewrite Z.mul_assoc, Z.add_comm, Z.mod_add by lia. reflexivity.
Qed.
Lemma be128_int l : bytes_ok l -> zlen l = 16 -> be128 (int_of_be l) = l.
Proof.
  intros H L. apply list_ext; [rewrite zlen_be128; lia|]. rewrite zlen_be128. intros i Hi. unfold be128. rewrite znth_ztab by lia.
  rewrite <- (be_byte l i H) by lia. rewrite L. reflexivity.
Qed.

(* ------------------------------------------------------------------ *)
(** ** One block *)
Lemma AES256_ok key b : zlen key = 32 -> bytes_ok key -> zlen b = 16 -> bytes_ok b ->
  zlen (AES256 key b) = 16 /\ bytes_ok (AES256 key b).
Proof. intros. apply (Cipher_spec_ok 8 14 key); auto; split; auto. Qed.
Lemma ECB_one E b : zlen b = 16 -> ECB E b = E b.
Proof.
  intros L. unfold ECB. rewrite L. change (16 / 16) with 1. unfold ztab, zseq. change (Z.to_nat 1) with 1%nat. cbn [seq map concat].
  rewrite app_nil_r. change (16 * Z.of_nat 0) with 0. rewrite zslice_all_n by lia. reflexivity.
Qed.
Lemma AES256_ECB_wp im key ctr buf : zlen key = 32 -> bytes_ok key -> zlen ctr = 16 -> bytes_ok ctr -> zlen buf = 16 ->
  wp (AES256_ECB im key ctr buf) (fun r => r = AES256 key ctr).
Proof.
  intros Lk Bk Lc Bc Lb. unfold AES256_ECB.
  assert (HN : 8 = 4 /\ 14 = 10 \/ 8 = 8 /\ 14 = 14) by auto.
  apply wp_bind; eapply wp_mono with (P := sched_upto 8 14 key (16 * (14 + 1))).
  - destruct im; [apply load_schedule_c_wp|apply aes256_load_schedule_ni_wp|apply evp_init_wp]; auto.
  - intros s H. apply wp_bind. eapply wp_mono with (P := fun r => r = AES256 key ctr).
    + rewrite <- (ECB_one (AES256 key)) by exact Lc. unfold AES256.
      change (fun b => Cipher_spec 14 (KeyExpansion 8 14 key) b) with (Cipher_spec 14 (KeyExpansion 8 14 key)).
      rewrite <- (ECB_spec_ECB 8 14 key HN Lk Bk ctr 1 ltac:(lia) ltac:(lia) Bc).
      change 16 with (16 * 1) at 1. apply ECB_wp; auto; lia.
    + intros r ->. apply wp_bind. unfold AES_free_schedule. destruct H as (L & _).
      apply wp_memset; try lia. apply wp_ret. reflexivity.
Qed.

(* ------------------------------------------------------------------ *)
(** ** The update function *)
Definition Vok (v : Z) : Prop := 0 <= v < 2 ^ 128.
Lemma zlen_keystream Key V n : zlen Key = 32 -> bytes_ok Key -> 0 <= n -> zlen (keystream Key V n) = 16 * n /\
  bytes_ok (keystream Key V n) /\
  forall i, 0 <= i < n -> zslice (keystream Key V n) (16 * i) 16 = AES256 Key (be128 ((V + 1 + i) mod 2 ^ 128)).
Proof.
  intros Lk Bk Hn. unfold keystream.
  assert (HA : forall i, zlen (AES256 Key (be128 ((V + 1 + i) mod 2 ^ 128))) = 16 /\ bytes_ok (AES256 Key (be128 ((V + 1 + i) mod 2 ^ 128)))).
  { intros i. apply AES256_ok; auto using zlen_be128, be128_ok. }
  rewrite concat_16 by (auto; intros; apply HA). split; [apply zlen_ztab; lia|]. split.
  - apply inrange_intro. rewrite zlen_ztab by lia. intros i Hi. rewrite znth_ztab by lia. apply inrange_znth; [apply HA|]. 
    destruct (HA (i / 16)) as (-> & _). apply Z.mod_pos_bound; lia.
  - intros i Hi. rewrite zslice_ztab by (rewrite ?zlen_ztab; lia). apply list_ext; [rewrite zlen_ztab by lia; symmetry; apply HA|].
    rewrite zlen_ztab by lia. intros k Hk. rewrite !znth_ztab by lia. replace ((16 * i + k) / 16) with i by dlia.
    replace ((16 * i + k) mod 16) with k by dlia. reflexivity.
Qed.
Lemma keystream_snoc Key V n : 0 <= n -> keystream Key V (n + 1) = keystream Key V n ++ AES256 Key (be128 ((V + 1 + n) mod 2 ^ 128)).
Proof.
  intros Hn. unfold keystream, ztab, zseq. replace (Z.to_nat (n + 1)) with (Z.to_nat n + 1)%nat by lia.
  rewrite seq_app, !map_app, concat_app. cbn [seq map concat Nat.add]. rewrite app_nil_r, Z2Nat.id by lia. reflexivity.
Qed.
Lemma xor_loop_wp n a b : zlen a = n -> bytes_ok a -> zlen b = n -> bytes_ok b ->
  wp (for_ 0 n (fun i s => x <- rd s i ;; y <- rd b i ;; wr s i (Z.lxor x y)) a) (fun r => r = xor_bytes a b).
Proof.
  intros La Ba Lb Bb. pose proof (zlen_nonneg a).
  apply wp_for with (I := fun k s => s = ztab n (fun i => if i <? k then Z.lxor (znth a i) (znth b i) else znth a i)).
  - lia.
  - transitivity (ztab (zlen a) (znth a)); [apply zlist_ztab|]. rewrite La. apply ztab_ext. intros i Hi. destruct (Z.ltb_spec i 0); [lia|reflexivity].
  - intros k s Hk ->.
    assert (E : znth (ztab n (fun i => if i <? k then Z.lxor (znth a i) (znth b i) else znth a i)) k = znth a k).
    { rewrite znth_ztab by lia. destruct (Z.ltb_spec k k); [lia|reflexivity]. }
    apply wp_bind, wp_rd; rewrite ?E; [rewrite zlen_ztab; lia|apply (inrange_znth 256); auto; lia|].
    apply wp_bind, wp_rd; [lia|apply (inrange_znth 256); auto; lia|].
    apply wp_wr; [rewrite zlen_ztab; lia|].
    apply list_ext; [rewrite zlen_zset, !zlen_ztab; lia|]. rewrite zlen_zset, zlen_ztab by lia. intros i Hi.
    rewrite znth_zset, !znth_ztab by (rewrite ?zlen_ztab; lia).
    destruct (Z.eqb_spec k i), (Z.ltb_spec i (k + 1)), (Z.ltb_spec i k); try lia; subst; reflexivity.
  - intros s ->. unfold xor_bytes. rewrite La. apply ztab_ext. intros i Hi. destruct (Z.ltb_spec i n); [reflexivity|lia].
Qed.
Lemma xor_bytes_ok a b : bytes_ok a -> bytes_ok b -> zlen b = zlen a -> bytes_ok (xor_bytes a b) /\ zlen (xor_bytes a b) = zlen a.
Proof.
  intros Ha Hb L. pose proof (zlen_nonneg a). unfold xor_bytes. split; [|apply zlen_ztab; lia].
  apply inrange_intro. rewrite zlen_ztab by lia. intros i Hi. rewrite znth_ztab by lia.
  pose proof (inrange_znth 256 a i Ha ltac:(lia)). pose proof (inrange_znth 256 b i Hb ltac:(lia)).
  apply byte_lxor; unfold byte; lia.
Qed.
Lemma xor_zero a : xor_bytes a (zrep (zlen a) 0) = a.
Proof.
  unfold xor_bytes. transitivity (ztab (zlen a) (znth a)); [|symmetry; apply zlist_ztab]. apply ztab_ext. intros i Hi. rewrite znth_zrep by lia. apply Z.lxor_0_r.
Qed.
(** [reps Key V st]: the arrays hold the state (Key, V) of the specification. *)
Definition reps (K V : list Z) (st : list Z * Z) : Prop :=
  K = fst st /\ V = be128 (snd st) /\ zlen (fst st) = 32 /\ bytes_ok (fst st) /\ Vok (snd st).
Lemma Update_ok data Key V : zlen Key = 32 -> bytes_ok Key -> zlen data = 48 -> bytes_ok data ->
  let '(K, v) := Update data Key V in zlen K = 32 /\ bytes_ok K /\ Vok v.
Proof.
  intros Lk Bk Ld Bd. unfold Update. destruct (zlen_keystream Key V 3 Lk Bk ltac:(lia)) as (L & B & _).
  destruct (xor_bytes_ok (keystream Key V 3) data B Bd ltac:(lia)) as (B2 & L2). set (t := xor_bytes _ _) in *.
  assert (E1 : firstn 32 t = zslice t 0 32) by reflexivity.
  assert (E2 : skipn 32 t = zslice t 32 16).
  { unfold zslice. change (Z.to_nat 32) with 32%nat. rewrite firstn_all2; [reflexivity|]. rewrite skipn_length. rewrite L in L2. unfold zlen in L2. lia. }
  split; [rewrite E1; apply zlen_zslice; lia|]. split; [apply inrange_firstn, B2|].
  unfold Vok. rewrite E2. pose proof (int_of_be_range (zslice t 32 16) (inrange_zslice 256 _ _ _ B2)) as R.
  rewrite zlen_zslice in R by lia. exact R.
Qed.
Lemma update_wp im d K V st : reps K V st -> (forall x, d = Some x -> zlen x = 48 /\ bytes_ok x) ->
  wp (AES256_CTR_DRBG_Update im d K V) (fun '(K', V') => reps K' V' (Update (match d with Some x => x | None => zrep 48 0 end) (fst st) (snd st))).
Proof.
  intros (-> & -> & Lk & Bk & Hv) Hd. destruct st as [Key v]. cbn [fst snd] in *. unfold AES256_CTR_DRBG_Update.
  apply wp_bind. apply wp_for with (I := fun k '(t, V) => t = keystream Key v k ++ uninit (48 - 16 * k) /\ V = be128 ((v + k) mod 2 ^ 128)).
  - lia.
  - split; [reflexivity|]. rewrite Z.add_0_r, Z.mod_small by exact Hv. reflexivity.
  - intros k [t V] Hk (-> & ->). apply wp_bind. eapply wp_mono; [apply increment_wp, Z.mod_pos_bound; lia|].
    intros V' E; cbv beta in E; subst V'. rewrite Z.add_mod_idemp_l by lia.
    destruct (zlen_keystream Key v k Lk Bk ltac:(lia)) as (L & B & _).
    assert (Lt : zlen (keystream Key v k ++ uninit (48 - 16 * k)) = 48) by (rewrite zlen_app, L; unfold uninit; rewrite zlen_zrep; lia).
    apply wp_bind, wp_sub; try lia. apply wp_bind. eapply wp_mono; [apply AES256_ECB_wp; auto using zlen_be128, be128_ok; rewrite zlen_zslice; lia|].
    intros r E; cbv beta in E; subst r.
    destruct (AES256_ok Key (be128 ((v + k + 1) mod 2 ^ 128)) Lk Bk (zlen_be128 _) (be128_ok _)) as (LA & BA).
    apply wp_bind, wp_put; try lia. apply wp_ret. rewrite keystream_snoc by lia. 
    replace (v + 1 + k) with (v + k + 1) by lia. split; [|f_equal; f_equal; lia].
    unfold uninit. replace (48 - 16 * k) with (16 + (48 - 16 * (k + 1))) by lia.
    apply list_ext; rewrite ?zlen_zsplice, ?zlen_app, ?L, ?LA, ?zlen_zrep by (rewrite ?zlen_app, ?L, ?LA, ?zlen_zrep; lia); [lia|].
    intros i Hi. rewrite znth_zsplice by (rewrite ?zlen_app, ?L, ?LA, ?zlen_zrep; lia). rewrite LA.
    destruct (Z.leb_spec (16 * k) i); cbn [andb].
    + destruct (Z.ltb_spec i (16 * k + 16)).
      * rewrite znth_app1 by (rewrite zlen_app; lia). rewrite znth_app2 by lia. f_equal; lia.
      * rewrite znth_app2 by lia. rewrite znth_zrep by lia. rewrite znth_app2 by (rewrite zlen_app; lia). rewrite znth_zrep by (rewrite zlen_app; lia). reflexivity.
    + rewrite znth_app1 by lia. rewrite znth_app1 by (rewrite zlen_app; lia). rewrite znth_app1 by lia. reflexivity.
  - intros [t V] (-> & ->). change (uninit (48 - 16 * 3)) with (@nil Z). rewrite app_nil_r.
    destruct (zlen_keystream Key v 3 Lk Bk ltac:(lia)) as (L & B & _).
    set (data := match d with Some x => x | None => zrep 48 0 end).
    assert (Hdata : zlen data = 48 /\ bytes_ok data).
    { unfold data. destruct d as [x|]; [apply Hd; reflexivity|]. split; [apply zlen_zrep; lia|apply inrange_zrep0; lia]. }
    destruct Hdata as (Ld & Bd). apply wp_bind. apply wp_mono with (P := fun t => t = xor_bytes (keystream Key v 3) data).
    { unfold data. destruct d as [x|]; [apply xor_loop_wp; auto; apply (Hd x); reflexivity|].
      apply wp_ret. replace 48 with (zlen (keystream Key v 3)) by lia. symmetry. apply xor_zero. }
    intros t ->. destruct (xor_bytes_ok (keystream Key v 3) data B Bd ltac:(lia)) as (B2 & L2).
    pose proof (Update_ok data Key v Lk Bk Ld Bd) as HU. unfold Update in *. set (t := xor_bytes _ _) in *.
    apply wp_bind, wp_memcpy; try lia. apply wp_bind, wp_memcpy; rewrite ?zlen_be128; try lia. apply wp_ret.
    assert (E1 : firstn 32 t = zslice t 0 32) by reflexivity.
    assert (E2 : skipn 32 t = zslice t 32 16).
    { unfold zslice. change (Z.to_nat 32) with 32%nat. rewrite firstn_all2; [reflexivity|]. rewrite skipn_length. rewrite L in L2. unfold zlen in L2. lia. }
    destruct HU as (U1 & U2 & U3). split; cbn [fst snd].
    + rewrite zsplice_all by (rewrite zlen_zslice; lia). symmetry; exact E1.
    + split; [|auto]. rewrite zsplice_all by (rewrite zlen_zslice, zlen_be128; lia). rewrite E2. symmetry. apply be128_int; [apply inrange_zslice, B2|apply zlen_zslice; lia].
Qed.

(* ------------------------------------------------------------------ *)
(** ** Instantiate and generate *)
Definition dreps (d : drbg) (st : list Z * Z) : Prop := reps (d_Key d) (d_V d) st.
Lemma be128_0 : be128 0 = zrep 16 0. Proof. reflexivity. Qed.
Lemma init_wp im d entropy pers : zlen (d_Key d) = 32 -> zlen (d_V d) = 16 ->
  zlen entropy = 48 -> bytes_ok entropy -> (forall x, pers = Some x -> zlen x = 48 /\ bytes_ok x) ->
  wp (randombytes_init im d entropy pers) (fun d' => dreps d' (Instantiate entropy (match pers with Some x => x | None => zrep 48 0 end)) /\ d_reseed d' = 1).
Proof.
  intros LK LV Le Be Hp. unfold randombytes_init, Instantiate.
  set (p := match pers with Some x => x | None => zrep 48 0 end).
  assert (Hpp : zlen p = 48 /\ bytes_ok p).
  { unfold p. destruct pers as [x|]; [apply Hp; reflexivity|]. split; [apply zlen_zrep; lia|apply inrange_zrep0; lia]. }
  destruct Hpp as (Lp & Bp).
  apply wp_bind, wp_memcpy; try (change (zlen (uninit 48)) with 48); try lia.
  rewrite zslice_all_n by lia. rewrite zsplice_all by (rewrite Le; reflexivity).
  apply wp_bind. apply wp_mono with (P := fun s => s = xor_bytes entropy p).
  { unfold p. destruct pers as [x|]; [apply xor_loop_wp; auto; apply (Hp x); reflexivity|].
    apply wp_ret. rewrite <- Le. symmetry; apply xor_zero. }
  intros s ->. destruct (xor_bytes_ok entropy p Be Bp ltac:(lia)) as (Bx & Lx).
  apply wp_bind, wp_memset; try lia. apply wp_bind, wp_memset; try lia.
  rewrite !zsplice_all by (rewrite zlen_zrep; lia).
  apply wp_bind. eapply wp_mono.
  - apply (update_wp im (Some (xor_bytes entropy p)) (zrep 32 0) (zrep 16 0) (zrep 32 0, 0)).
    + split; [reflexivity|]. split; [symmetry; apply be128_0|]. split; [reflexivity|]. split; [apply inrange_zrep0; lia|cbn; unfold Vok; lia].
    + intros x E. injection E as <-. split; [lia|exact Bx].
  - intros [K V] H. apply wp_ret. split; [exact H|reflexivity].
Qed.
Lemma Generate_ok st n : zlen (fst st) = 32 -> bytes_ok (fst st) -> 0 <= n ->
  zlen (fst (Generate st n)) = n /\ bytes_ok (fst (Generate st n)) /\
  zlen (fst (snd (Generate st n))) = 32 /\ bytes_ok (fst (snd (Generate st n))) /\ Vok (snd (snd (Generate st n))).
Proof.
  intros L B Hn. destruct st as [Key v]. cbn [fst snd] in *. unfold Generate. cbn [fst snd].
  destruct (zlen_keystream Key v ((n + 15) / 16) L B ltac:(dlia)) as (LK & BK & _).
  split. { change (firstn (Z.to_nat n) (keystream Key v ((n + 15) / 16))) with (zslice (keystream Key v ((n + 15) / 16)) 0 n). apply zlen_zslice; [lia|lia|]. rewrite LK. dlia. }
  split; [apply inrange_firstn, BK|].
  pose proof (Update_ok (zrep 48 0) Key ((v + (n + 15) / 16) mod 2 ^ 128) L B ltac:(reflexivity) ltac:(apply inrange_zrep0; lia)) as H.
  destruct (Update _ _ _). exact H.
Qed.
Lemma splice_step (x KS b : list Z) a m : 0 <= a -> 0 <= m -> a + m <= zlen x -> a + m <= zlen KS -> zlen b = m ->
  b = zslice KS a m -> zsplice (zsplice x 0 (zslice KS 0 a)) a b = zsplice x 0 (zslice KS 0 (a + m)).
Proof.
  intros Ha Hm Hx HK Lb Eb.
  assert (L1 : zlen (zslice KS 0 a) = a) by (apply zlen_zslice; lia).
  assert (L2 : zlen (zslice KS 0 (a + m)) = a + m) by (apply zlen_zslice; lia).
  assert (L3 : zlen (zsplice x 0 (zslice KS 0 a)) = zlen x) by (apply zlen_zsplice; lia).
  apply list_ext; rewrite !zlen_zsplice by lia; [reflexivity|]. intros i Hi.
  rewrite !znth_zsplice by lia. rewrite L1, L2, Lb.
  destruct (Z.leb_spec a i), (Z.leb_spec 0 i), (Z.ltb_spec i (a + m)), (Z.ltb_spec i (0 + a)), (Z.ltb_spec i (0 + (a + m))); cbn [andb]; try lia; try reflexivity.
  - subst b. rewrite !znth_zslice by lia. f_equal; lia.
  - rewrite !znth_zslice by lia. reflexivity.
Qed.
Lemma generate_wp im d st x n : dreps d st -> 0 <= n < 2 ^ 31 -> n <= zlen x -> 0 <= d_reseed d < 2 ^ 31 - 1 ->
  wp (randombytes_drbg im d x n) (fun '(x', rc, d') =>
    x' = zsplice x 0 (fst (Generate st n)) /\ rc = 0 /\ dreps d' (snd (Generate st n)) /\ d_reseed d' = d_reseed d + 1).
Proof.
  intros (EK & EV & LK & BK & Hv) Hn Hx Hr. destruct st as [Key v]. cbn [fst snd] in *. unfold randombytes_drbg. rewrite EK, EV.
  set (bl := (n + 15) / 16). assert (Hbl : 0 <= bl) by (unfold bl; dlia). assert (Hbn : n <= 16 * bl) by (unfold bl; dlia).
  destruct (zlen_keystream Key v bl LK BK Hbl) as (Lks & Bks & Sks). set (KS := keystream Key v bl) in *.
  apply wp_bind.
  apply wp_loop with (I := fun '(x', i, xl, V, b) => exists k, 0 <= k <= bl /\ xl = Z.max 0 (n - 16 * k) /\ (0 < xl -> i = 16 * k) /\
      V = be128 ((v + k) mod 2 ^ 128) /\ zlen b = 16 /\ x' = zsplice x 0 (zslice KS 0 (Z.min n (16 * k))))
    (mu := fun '(x', i, xl, V, b) => Z.to_nat ((xl + 15) / 16)).
  - exists 0. repeat split; try lia.
    + rewrite Z.add_0_r, Z.mod_small by exact Hv. reflexivity.
    + rewrite Z.min_r by lia. change (zslice KS 0 (16 * 0)) with (@nil Z). reflexivity.
  - cbn -[Z.to_nat Z.div]. dlia.
  - intros [[[[x' i] xl] V] b] (k & Hk & Exl & Ei & -> & Lb & Ex). destruct (Z.ltb_spec 0 xl) as [Hpos|Hz].
    + specialize (Ei Hpos). subst i. assert (Hkb : k < bl) by lia.
      apply wp_bind. eapply wp_mono; [apply increment_wp, Z.mod_pos_bound; lia|].
      intros V' E; cbv beta in E; subst V'. rewrite Z.add_mod_idemp_l by lia.
      apply wp_bind. eapply wp_mono; [apply AES256_ECB_wp; auto using zlen_be128, be128_ok|].
      intros r E; cbv beta in E; subst r.
      destruct (AES256_ok Key (be128 ((v + k + 1) mod 2 ^ 128)) LK BK (zlen_be128 _) (be128_ok _)) as (LA & BA).
      pose proof (Sks k ltac:(lia)) as Sk. replace (v + 1 + k) with (v + k + 1) in Sk by lia.
      set (blk := AES256 Key (be128 ((v + k + 1) mod 2 ^ 128))) in *.
      rewrite Z.min_r in Ex by lia.
      assert (Lx' : zlen x' = zlen x). { rewrite Ex. apply zlen_zsplice; [lia|]. rewrite zlen_zslice by lia. lia. }
      assert (Hstep : forall m, 0 <= m <= 16 -> 16 * k + m <= n ->
        zsplice x' (16 * k) (zslice blk 0 m) = zsplice x 0 (zslice KS 0 (16 * k + m))).
      { intros m Hm1 Hm2. rewrite Ex. apply splice_step; try lia; [rewrite zlen_zslice; lia|].
        rewrite <- Sk. apply list_ext; rewrite !zlen_zslice by (rewrite ?zlen_zslice; lia); [reflexivity|]. intros j Hj. rewrite !znth_zslice by lia. f_equal; lia. }
      apply wp_branch; intros Hc.
      * apply Z.ltb_lt in Hc. apply wp_bind, wp_memcpy; try lia. apply wp_bind, wp_i32; [lia|]. apply wp_ret. cbn [fst snd]. split; [|dlia].
        exists (k + 1). repeat split; try lia; try (f_equal; f_equal; lia).
        rewrite Hstep by lia. f_equal. f_equal. lia.
      * apply Z.ltb_ge in Hc. apply wp_bind, wp_memcpy; try lia. apply wp_ret. cbn [fst snd]. split; [|dlia].
        exists (k + 1). repeat split; try lia; try (f_equal; f_equal; lia).
        rewrite Hstep by lia. f_equal. f_equal. lia.
    + apply wp_ret. cbn [fst snd]. assert (Hkb : n <= 16 * k) by lia. assert (k = bl) by (unfold bl in *; dlia). subst k.
      rewrite Z.min_l in Ex by lia. apply wp_bind. eapply wp_mono.
      * apply (update_wp im None Key (be128 ((v + bl) mod 2 ^ 128)) (Key, (v + bl) mod 2 ^ 128)).
        -- split; [reflexivity|]. split; [reflexivity|]. split; [exact LK|]. split; [exact BK|]. apply Z.mod_pos_bound; lia.
        -- intros ? E; discriminate E.
      * intros [K' V'] H. apply wp_bind, wp_i32; [lia|]. apply wp_ret.
        split; [exact Ex|]. split; [reflexivity|]. split; [exact H|reflexivity].
Qed.
