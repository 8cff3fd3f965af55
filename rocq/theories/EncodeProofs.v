(** frodo_mul_bs, frodo_mul_add_sb_plus_e, frodo_add, frodo_sub, frodo_key_encode,
    frodo_key_decode against MatrixSpec.v. *)
From Verif Require Import CSem Params MatrixSpec Macrify MatrixProofs MatrixProofs2 UtilProofs.

Lemma mod16_mod D x : 0 <= D <= 16 -> (x mod 65536) mod 2 ^ D = x mod 2 ^ D.
Proof.
  intros HD. pose proof (pow2_le_16 D HD).
  assert (E : 65536 = 2 ^ (16 - D) * 2 ^ D) by (rewrite <- Z.pow_add_r by lia; replace (16 - D + D) with 16 by lia; reflexivity).
  rewrite (Z.mod_eq x 65536) by lia. rewrite E at 1.
  replace (x - 2 ^ (16 - D) * 2 ^ D * (x / 65536)) with (x + (- (2 ^ (16 - D) * (x / 65536))) * 2 ^ D) by lia.
  apply Z.mod_add; lia.
Qed.

(* ------------------------------------------------------------------ *)
(** ** Bits, least significant first *)
Lemma lsb_sum_bound n f : 0 <= n -> (forall t, 0 <= t < n -> 0 <= f t <= 1) ->
  0 <= zsum n (fun t => f t * 2 ^ t) < 2 ^ n.
Proof.
  intros Hn; pattern n; apply natlike_ind; [| |exact Hn]; clear n Hn.
  - intros _; rewrite zsum_0; cbn; lia.
  - intros n Hn IH Hf; rewrite <- Z.add_1_r, zsum_succ by lia.
    specialize (IH ltac:(intros; apply Hf; lia)). specialize (Hf n ltac:(lia)).
    rewrite Z.pow_add_r by lia. pose proof (Z.pow_pos_nonneg 2 n ltac:(lia) Hn).
    assert (f n * 2 ^ n <= 1 * 2 ^ n) by (apply Z.mul_le_mono_nonneg_r; lia).
    assert (0 <= f n * 2 ^ n) by (apply Z.mul_nonneg_nonneg; lia). lia.
Qed.
Lemma lsb_sum_bit n f k : 0 <= k < n -> (forall t, 0 <= t < n -> 0 <= f t <= 1) ->
  Z.b2z (Z.testbit (zsum n (fun t => f t * 2 ^ t)) k) = f k.
Proof.
  intros (Hk & Hkn); assert (Hn : 0 <= n) by lia; revert Hkn.
  pattern n; apply natlike_ind; [| |exact Hn]; clear n Hn.
  - lia.
  - intros n Hn IH Hkn Hf; rewrite <- Z.add_1_r, zsum_succ by lia.
    pose proof (lsb_sum_bound n f Hn ltac:(intros; apply Hf; lia)) as Hb.
    pose proof (Hf n ltac:(lia)) as Hfn. pose proof (Z.pow_pos_nonneg 2 n ltac:(lia) Hn).
    set (a := zsum n (fun t => f t * 2 ^ t)) in *.
    destruct (Z.eq_dec k n) as [->|Hne].
    + rewrite Z.testbit_spec' by lia. rewrite Z.div_add by lia. rewrite (Z.div_small a) by lia.
      rewrite Z.mod_small; lia.
    + rewrite <- (Z.mod_pow2_bits_low _ n) by lia. rewrite Z.mod_add by lia. rewrite Z.mod_small by lia.
      apply IH; [lia|]. intros; apply Hf; lia.
Qed.
Lemma mod_pow2_lsb n v : 0 <= n -> v mod 2 ^ n = zsum n (fun t => Z.b2z (Z.testbit v t) * 2 ^ t).
Proof.
  intros Hn. assert (Hf : forall t, 0 <= t < n -> 0 <= Z.b2z (Z.testbit v t) <= 1)
    by (intros; destruct (Z.testbit v t); cbn; lia).
  pose proof (lsb_sum_bound n _ Hn Hf) as Hb.
  apply Z.bits_inj'; intros k Hk. destruct (Z.ltb_spec k n).
  - rewrite Z.mod_pow2_bits_low by lia.
    pose proof (lsb_sum_bit n (fun t => Z.b2z (Z.testbit v t)) k ltac:(lia) Hf) as E. cbv beta in E.
    destruct (Z.testbit v k), (Z.testbit (zsum n _) k); cbn in E; try reflexivity; discriminate.
  - rewrite Z.mod_pow2_bits_high by lia. symmetry.
    rewrite <- (Z.mod_small _ (2 ^ n) Hb). apply Z.mod_pow2_bits_high; lia.
Qed.
Lemma lsb_bit_range W l k : 0 <= lsb_bit W l k <= 1.
Proof. unfold lsb_bit; destruct (Z.testbit _ _); cbn; lia. Qed.
Lemma lsb_bit_at W l m t : 0 <= t < W -> lsb_bit W l (W * m + t) = Z.b2z (Z.testbit (znth l m) t).
Proof.
  intros Ht; unfold lsb_bit. rewrite (Z.mul_comm W m), Z.div_add_l, Z.div_small, Z.add_0_r by lia.
  rewrite Z.add_comm, Z.mod_add, Z.mod_small by lia. reflexivity.
Qed.
Lemma zlen_regroup W1 W2 n l : 0 <= n -> zlen (regroup W1 W2 n l) = n.
Proof. intros; apply zlen_ztab; auto. Qed.
Lemma regroup_range W1 W2 n l : 0 <= W2 -> inrange (2 ^ W2) (regroup W1 W2 n l).
Proof.
  intros; apply inrange_ztab; intros. apply (lsb_sum_bound W2); [auto|]. intros; apply lsb_bit_range.
Qed.
Lemma lsb_bit_regroup W1 W2 n l k : 0 < W2 -> 0 <= k < W2 * n ->
  lsb_bit W2 (regroup W1 W2 n l) k = lsb_bit W1 l k.
Proof.
  intros HW Hk. pose proof (Z.mod_pos_bound k W2 HW). pose proof (Z.div_mod k W2 ltac:(lia)).
  assert (Hq : 0 <= k / W2 < n) by (split; [apply Z.div_pos; lia|apply Z.div_lt_upper_bound; lia]).
  unfold lsb_bit at 1. unfold regroup; rewrite znth_ztab by exact Hq.
  rewrite (lsb_sum_bit W2 (fun t => lsb_bit W1 l (W2 * (k / W2) + t))) by (auto; intros; apply lsb_bit_range).
  f_equal; lia.
Qed.
Lemma regroup_self W n l : 0 < W -> zlen l = n -> inrange (2 ^ W) l -> regroup W W n l = l.
Proof.
  intros HW L R; apply list_ext; [rewrite zlen_regroup; [lia|pose proof (zlen_nonneg l); lia]|].
  rewrite zlen_regroup by (pose proof (zlen_nonneg l); lia). intros m Hm. unfold regroup; rewrite znth_ztab by exact Hm.
  rewrite (zsum_ext W _ (fun t => Z.b2z (Z.testbit (znth l m) t) * 2 ^ t))
    by (intros; rewrite lsb_bit_at by lia; reflexivity).
  rewrite <- mod_pow2_lsb by lia. apply Z.mod_small, inrange_znth; auto; lia.
Qed.
Lemma regroup_regroup W1 W2 n m l : 0 < W1 -> 0 < W2 -> 0 <= m -> W1 * n = W2 * m -> zlen l = n -> inrange (2 ^ W1) l ->
  regroup W2 W1 n (regroup W1 W2 m l) = l.
Proof.
  intros H1 H2 Hm E L R. transitivity (regroup W1 W1 n l); [|apply regroup_self; auto].
  apply ztab_ext; intros i Hi; apply zsum_ext; intros t Ht; f_equal.
  apply lsb_bit_regroup; [auto|]. rewrite <- E.
  pose proof (Z.mul_le_mono_nonneg_l (i + 1) n W1). pose proof (Z.mul_nonneg_nonneg W1 i). lia.
Qed.

(* ------------------------------------------------------------------ *)
Section Ops.
Variable P : params.
Hypothesis V : valid P.
Let N := pN P.
Let D := pD P.
Let B := pB P.
Lemma HNp : 0 < N <= 32768. Proof. exact (v_N P V). Qed.
Lemma HDp : 1 < D <= 16. Proof. exact (v_D P V). Qed.
Lemma HBp : 1 <= B < D /\ B <= 8. Proof. split; [exact (v_B P V)|exact (v_B8 P V)]. Qed.

Lemma mask_wp (Q : Z -> Prop) : Q (2 ^ D - 1) ->
  wp (m <- shl32 1 D ;; i32 (m - 1)) Q.
Proof.
  intros HQ; pose proof HDp. pose proof (pow2_le_16 D ltac:(lia)).
  apply wp_bind, wp_shl32; [lia|lia|lia|]. rewrite Z.mul_1_l. apply wp_i32; [lia|exact HQ].
Qed.
Lemma mask_wp2 {A} (f : Z -> res A) (Q : A -> Prop) : wp (f (2 ^ D - 1)) Q ->
  wp (m <- shl32 1 D ;; m <- i32 (m - 1) ;; f m) Q.
Proof.
  intros HQ; pose proof HDp. pose proof (pow2_le_16 D ltac:(lia)).
  apply wp_bind, wp_shl32; [lia|lia|lia|]. rewrite Z.mul_1_l.
  apply wp_bind, wp_i32; [lia|exact HQ].
Qed.
Lemma land_u16 x : u16 (Z.land x (2 ^ D - 1)) = x mod 2 ^ D.
Proof.
  pose proof HDp. pose proof (pow2_le_16 D ltac:(lia)). rewrite land_pow2m1 by lia.
  unfold u16; apply Z.mod_small. pose proof (Z.mod_pos_bound x (2 ^ D)). lia.
Qed.
Lemma modq_u16 x : 0 <= x mod 2 ^ D < 65536.
Proof.
  pose proof HDp. pose proof (pow2_le_16 D ltac:(lia)). pose proof (Z.mod_pos_bound x (2 ^ D)). lia.
Qed.

(** The two 8x8 products write entry (i,j), then accumulate in it. *)
Lemma acc_loop_wp (out : list Z) f0 i j (v0 : Z) (x y : Z -> Z) (body : Z -> list Z -> res (list Z)) :
  0 <= i < 8 -> 0 <= j < 8 -> 0 <= v0 < 65536 ->
  (forall k o v, 0 <= k < N -> mat 8 8 o (upd2 f0 i j v) -> 0 <= v < 65536 ->
     wp (body k o) (fun o' => mat 8 8 o' (upd2 f0 i j ((v + x k * y k) mod 65536)))) ->
  mat 8 8 out (upd2 f0 i j v0) ->
  wp (for_ 0 N body out) (fun o => mat 8 8 o (upd2 f0 i j ((v0 + zsum N (fun k => x k * y k)) mod 65536))).
Proof.
  intros Hi Hj Hv Hb HM.
  apply (wp_for (fun k o => mat 8 8 o (upd2 f0 i j ((v0 + zsum k (fun k => x k * y k)) mod 65536)))).
  - pose proof HNp; lia.
  - rewrite zsum_0, Z.add_0_r, Z.mod_small by lia. exact HM.
  - intros k o Hk Ho. eapply wp_mono; [apply Hb; [exact Hk|exact Ho|apply mod16_range]|].
    intros o'. rewrite mod16_add, zsum_succ, Z.add_assoc by lia. auto.
  - auto.
Qed.
Lemma upd2_eq f i j v : upd2 f i j v i j = v.
Proof. unfold upd2; rewrite !Z.eqb_refl; reflexivity. Qed.
Lemma upd2_upd2 f i j v w q k : upd2 (upd2 f i j v) i j w q k = upd2 f i j w q k.
Proof. unfold upd2; destruct (_ && _); reflexivity. Qed.
Lemma mat88 A f : mat 8 8 A f -> A = ztab 64 (fun t => f (t / 8) (t mod 8)).
Proof. intros H; exact (mat_fun 8 H8 8 A f H ltac:(lia)). Qed.
(** Filling an 8x8 matrix row by row. *)
Lemma fill88_wp (body : Z -> Z -> list Z -> res (list Z)) (r : Z -> Z -> Z) out :
  zlen out = 64 -> u16s_ok out ->
  (forall i j o f, 0 <= i < 8 -> 0 <= j < 8 -> mat 8 8 o f -> wp (body i j o) (fun o' => mat 8 8 o' (upd2 f i j (r i j)))) ->
  wp (for_ 0 8 (fun i o => for_ 0 8 (fun j o => body i j o) o) out)
     (fun o => o = ztab 64 (fun t => r (t / 8) (t mod 8))).
Proof.
  intros L U Hb.
  apply (wp_for (fun i o => exists f, mat 8 8 o f /\ forall q k, 0 <= q < i -> 0 <= k < 8 -> f q k = r q k)).
  - lia.
  - eexists; split; [apply (mat_intro 8 8 out); [lia|exact U]|]. lia.
  - intros i o Hi (f & Hf & Ef).
    apply (wp_for (fun j o => exists f, mat 8 8 o f /\ forall q k, 0 <= k < 8 -> (0 <= q < i \/ q = i /\ k < j) -> f q k = r q k)).
    + lia.
    + exists f; split; [exact Hf|]. intros q k Hk [Hq|]; [apply Ef; auto|lia].
    + clear o f Hf Ef. intros j o Hj (f & Hf & Ef).
      eapply wp_mono; [apply Hb; [lia|lia|exact Hf]|]. intros o' Ho'; eexists; split; [exact Ho'|].
      intros q k Hk Hq; unfold upd2. destruct (Z.eqb_spec q i), (Z.eqb_spec k j); cbn [andb]; subst; try reflexivity; apply Ef; lia.
    + intros o' (f' & Hf' & Ef'); exists f'; split; [exact Hf'|]. intros q k Hq Hk; apply Ef'; lia.
  - intros o (f & Hf & Ef). rewrite (mat88 o f Hf). apply ztab_ext; intros t Ht. apply Ef; dlia.
Qed.

Lemma mul_bs_wp out b s : zlen out = 64 -> u16s_ok out -> zlen b = N * 8 -> u16s_ok b -> zlen s = N * 8 -> u16s_ok s ->
  wp (frodo_mul_bs P out b s) (fun o => o = BS_spec (2 ^ D) N b s).
Proof.
  intros Lo Uo Lb Ub Ls Us; unfold frodo_mul_bs, NBAR; pose proof HNp as HN; pose proof HDp.
  apply (fill88_wp _ (fun i j => zsum N (fun k => znth b (i * N + k) * znth s (j * N + k)) mod 2 ^ D)); auto.
  intros i j o f Hi Hj Ho.
  apply wp_bind; eapply (wr_mat 8 H8); [exact Ho|reflexivity|lia|lia|lia|]. intros o1 Ho1.
  apply wp_bind; eapply wp_mono.
  { apply (acc_loop_wp o1 f i j 0 (fun k => znth b (i * N + k)) (fun k => znth s (j * N + k))); auto; try lia.
    intros k o2 v Hk Ho2 Hv.
    apply wp_bind; eapply (rd_mat 8 H8); [exact Ho2|reflexivity|lia|lia|]. rewrite upd2_eq; intros _.
    apply wp_bind; eapply (rd_mat N HN 8 b); [apply mat_intro; auto; lia|reflexivity|lia|lia|]. intros Hx.
    apply wp_bind; eapply (rd_mat N HN 8 s); [apply mat_intro; auto; lia|reflexivity|lia|lia|]. intros Hy.
    apply wp_bind, mac_wp; [exact Hv|exact Hx|].
    eapply (wr_mat 8 H8); [exact Ho2|reflexivity|lia|lia|apply mod16_range|]. intros o3 Ho3.
    eapply mat_ext; [|exact Ho3]. intros q k' _ _. rewrite upd2_upd2.
    rewrite (Z.mul_comm (znth s _)). reflexivity. }
  cbv beta. intros o2 Ho2.
  apply wp_bind; eapply (rd_mat 8 H8); [exact Ho2|reflexivity|lia|lia|]. rewrite upd2_eq; intros _.
  apply mask_wp2. rewrite land_u16, mod16_mod by lia.
  eapply (wr_mat 8 H8); [exact Ho2|reflexivity|lia|lia|apply modq_u16|]. intros o3 Ho3.
  eapply mat_ext; [|exact Ho3]. intros q k _ _. rewrite upd2_upd2. reflexivity.
Qed.
Lemma sb_plus_e_wp out b s e : zlen out = 64 -> u16s_ok out -> zlen b = N * 8 -> u16s_ok b -> zlen s = N * 8 -> u16s_ok s ->
  zlen e = 64 -> u16s_ok e ->
  wp (frodo_mul_add_sb_plus_e P out b s e) (fun o => o = SB_E_spec (2 ^ D) N s b e).
Proof.
  intros Lo Uo Lb Ub Ls Us Le Ue; unfold frodo_mul_add_sb_plus_e, NBAR; pose proof HNp as HN; pose proof HDp.
  eapply wp_mono; [apply (fill88_wp _ (fun k i => (znth e (k * 8 + i) + zsum N (fun j => znth s (k * N + j) * znth b (j * 8 + i))) mod 2 ^ D)); auto|].
  2:{ intros o ->; apply ztab_ext; intros t Ht. do 2 f_equal. f_equal; dlia. }
  intros k i o f Hk Hi Ho.
  assert (Hr : 0 <= znth e (k * 8 + i) < 65536) by (apply inrange_znth; [exact Ue|lia]).
  apply wp_bind, wp_rd; [lia|lia|].
  apply wp_bind; eapply (wr_mat 8 H8); [exact Ho|reflexivity|lia|lia|lia|]. intros o1 Ho1.
  apply wp_bind; eapply wp_mono.
  { apply (acc_loop_wp o1 f k i (znth e (k * 8 + i)) (fun j => znth s (k * N + j)) (fun j => znth b (j * 8 + i))); auto; try lia.
    intros j o2 v Hj Ho2 Hv.
    apply wp_bind; eapply (rd_mat 8 H8); [exact Ho2|reflexivity|lia|lia|]. rewrite upd2_eq; intros _.
    apply wp_bind; eapply (rd_mat N HN 8 s); [apply mat_intro; auto; lia|reflexivity|lia|lia|]. intros Hx.
    apply wp_bind; eapply (rd_mat 8 H8 N b); [apply mat_intro; auto; lia|reflexivity|lia|lia|]. intros Hy.
    apply wp_bind, mac_wp; [exact Hv|exact Hy|].
    eapply (wr_mat 8 H8); [exact Ho2|reflexivity|lia|lia|apply mod16_range|]. intros o3 Ho3.
    eapply mat_ext; [|exact Ho3]. intros q k' _ _. rewrite upd2_upd2. reflexivity. }
  cbv beta. intros o2 Ho2.
  apply wp_bind; eapply (rd_mat 8 H8); [exact Ho2|reflexivity|lia|lia|]. rewrite upd2_eq; intros _.
  apply mask_wp2. rewrite land_u16, mod16_mod by lia.
  eapply (wr_mat 8 H8); [exact Ho2|reflexivity|lia|lia|apply modq_u16|]. intros o3 Ho3.
  eapply mat_ext; [|exact Ho3]. intros q j _ _. rewrite upd2_upd2. reflexivity.
Qed.

Lemma addsub_wp (op : Z -> Z -> Z) a b : zlen a = 64 -> u16s_ok a -> zlen b = 64 -> u16s_ok b ->
  (forall x y, 0 <= x < 65536 -> 0 <= y < 65536 -> -2147483648 <= op x y < 2147483648) ->
  wp (for_ 0 (8 * 8) (fun i b =>
    x <- rd a i ;; y <- rd b i ;; t <- i32 (op x y) ;;
    m <- shl32 1 D ;; m <- i32 (m - 1) ;; wr b i (u16 (Z.land t m))) b)
   (fun o => o = ztab 64 (fun t => op (znth a t) (znth b t) mod 2 ^ D)).
Proof.
  intros La Ua Lb Ub Hop.
  apply (wp_for (fun i o => zlen o = 64 /\ forall t, 0 <= t < 64 ->
    znth o t = if t <? i then op (znth a t) (znth b t) mod 2 ^ D else znth b t)).
  - lia.
  - split; [auto|]. intros t Ht; destruct (Z.ltb_spec t 0); [lia|reflexivity].
  - intros i o Hi (L & E).
    assert (Ha : 0 <= znth a i < 65536) by (apply inrange_znth; [exact Ua|lia]).
    assert (Hb : 0 <= znth b i < 65536) by (apply inrange_znth; [exact Ub|lia]).
    assert (Ei : znth o i = znth b i) by (rewrite E, Z.ltb_irrefl by lia; reflexivity).
    apply wp_bind, wp_rd; [lia|lia|]. apply wp_bind, wp_rd; [lia|lia|]. rewrite Ei.
    apply wp_bind, wp_i32; [apply Hop; auto|]. apply mask_wp2. rewrite land_u16.
    apply wp_wr; [lia|]. split; [rewrite zlen_zset; exact L|].
    intros t Ht; rewrite znth_zset by lia. destruct (Z.eqb_spec i t) as [->|].
    + destruct (Z.ltb_spec t (t + 1)); [reflexivity|lia].
    + rewrite E by lia. destruct (Z.ltb_spec t i), (Z.ltb_spec t (i + 1)); try lia; reflexivity.
  - intros o (L & E); apply list_ext; [rewrite zlen_ztab; lia|]. intros t Ht; rewrite znth_ztab, E by lia.
    destruct (Z.ltb_spec t (8 * 8)); [reflexivity|lia].
Qed.
Lemma add_wp a b : zlen a = 64 -> u16s_ok a -> zlen b = 64 -> u16s_ok b ->
  wp (frodo_add P a b) (fun o => o = add_spec (2 ^ D) a b).
Proof. intros; apply (addsub_wp Z.add); auto; lia. Qed.
Lemma sub_wp a b : zlen a = 64 -> u16s_ok a -> zlen b = 64 -> u16s_ok b ->
  wp (frodo_sub P a b) (fun o => o = sub_spec (2 ^ D) a b).
Proof. intros; apply (addsub_wp Z.sub); auto; lia. Qed.

(* ------------------------------------------------------------------ *)
(** ** Encoding and decoding *)
Lemma u64_small x : 0 <= x < 18446744073709551616 -> u64 x = x.
Proof. apply Z.mod_small. Qed.
Lemma u64_shl_byte x n : 0 <= x < 256 -> 0 <= n <= 56 -> u64 (Z.shiftl x n) = Z.shiftl x n.
Proof.
  intros Hx Hn; apply u64_small. rewrite Z.shiftl_mul_pow2 by lia.
  assert (1 <= 2 ^ n <= 2 ^ 56) by (split; [pose proof (Z.pow_pos_nonneg 2 n); lia|apply Z.pow_le_mono_r; lia]).
  change (2 ^ 56) with 72057594037927936 in *.
  split; [apply Z.mul_nonneg_nonneg; lia|].
  apply Z.le_lt_trans with (255 * 72057594037927936); [apply Z.mul_le_mono_nonneg; lia|lia].
Qed.
Lemma testbit_small x n k : 0 <= x < 2 ^ n -> n <= k -> Z.testbit x k = false.
Proof.
  intros Hx Hk. destruct (Z.eq_dec x 0) as [->|]; [apply Z.bits_0|].
  apply Z.bits_above_log2; [lia|]. apply Z.log2_lt_pow2; [lia|].
  apply Z.lt_le_trans with (2 ^ n); [lia|]. apply Z.pow_le_mono_r; lia.
Qed.

Lemma key_encode_wp out mu : zlen out = 64 -> zlen mu = 8 * B -> bytes_ok mu ->
  wp (frodo_key_encode P out mu) (fun o => o = encode_spec D B mu).
Proof.
  intros Lo Lm Bm; pose proof HBp as HB; pose proof HDp as HD.
  unfold frodo_key_encode. fold B D. change (NBAR * NBAR / 8) with 8.
  pose proof (pow2_le_8 B ltac:(lia)) as HB2.
  apply wp_bind, wp_shl64; [lia|].
  rewrite Z.shiftl_mul_pow2, Z.mul_1_l by lia. rewrite (u64_small (2 ^ B)) by lia.
  rewrite (u64_small (2 ^ B - 1)) by lia.
  apply wp_bind. 
  apply (wp_for (fun i '(o, pos) => pos = 8 * i /\ zlen o = 64 /\
     forall t, 0 <= t < 8 * i -> znth o t = znth (encode_spec D B mu) t)).
  - lia.
  - split; [lia|split; [exact Lo|lia]].
  - intros i (o, pos) Hi (-> & L & E).
    apply wp_bind; eapply wp_mono with (P := fun temp => 0 <= temp /\ forall x, 0 <= x ->
      Z.testbit temp x = if x <? 8 * B then Z.testbit (znth mu (i * B + x / 8)) (x mod 8) else false).
    { apply (wp_for (fun j temp => 0 <= temp /\ forall x, 0 <= x ->
        Z.testbit temp x = if x <? 8 * j then Z.testbit (znth mu (i * B + x / 8)) (x mod 8) else false)).
      - lia.
      - split; [lia|]. intros x Hx; destruct (Z.ltb_spec x (8 * 0)); [lia|apply Z.bits_0].
      - intros j temp Hj (H0 & T).
        assert (Hidx : 0 <= i * B + j < 8 * B).
        { pose proof (Z.mul_le_mono_nonneg_r (i + 1) 8 B). pose proof (Z.mul_nonneg_nonneg i B). lia. }
        assert (Hr : 0 <= znth mu (i * B + j) < 256) by (apply inrange_znth; [exact Bm|lia]).
        apply wp_bind, wp_rd; [lia|lia|]. apply wp_bind, wp_shl64; [lia|]. rewrite u64_shl_byte by lia.
        apply wp_ret. split; [apply Z.lor_nonneg; split; [auto|apply Z.shiftl_nonneg; lia]|].
        intros x Hx. rewrite Z.lor_spec, T by auto.
        destruct (Z.ltb_spec x (8 * j)), (Z.ltb_spec x (8 * (j + 1))); try lia.
        + rewrite Z.shiftl_spec_low by lia. apply orb_false_r.
        + rewrite Z.shiftl_spec by lia. cbn [orb]. replace (x / 8) with j by dlia.
          f_equal; dlia.
        + rewrite Z.shiftl_spec by lia. cbn [orb]. apply (testbit_small _ 8); [exact Hr|lia].
      - auto. }
    intros temp (Ht0 & T).
    apply wp_bind. apply (wp_for (fun j '(o, pos, tmp) => pos = 8 * i + j /\ zlen o = 64 /\
       tmp = Z.shiftr temp (B * j) /\
       forall t, 0 <= t < 8 * i + j -> znth o t = znth (encode_spec D B mu) t)).
    + lia.
    + split; [lia|split; [exact L|split]]. { rewrite Z.mul_0_r, Z.shiftr_0_r; reflexivity. }
      intros; apply E; lia.
    + clear o L E. intros j ((o, pos), tmp) Hj (-> & L & -> & E).
      assert (Epiece : Z.land (Z.shiftr temp (B * j)) (2 ^ B - 1) = znth (regroup 8 B 64 mu) (8 * i + j)).
      { rewrite land_pow2m1 by lia. rewrite mod_pow2_lsb by lia.
        unfold regroup; rewrite znth_ztab by lia. apply zsum_ext; intros t Ht; f_equal.
        assert (0 <= B * j) by (apply Z.mul_nonneg_nonneg; lia).
        assert (B * j + B <= B * 8) by (pose proof (Z.mul_le_mono_nonneg_l (j + 1) 8 B); lia).
        rewrite Z.shiftr_spec by lia. rewrite T by lia.
        destruct (Z.ltb_spec (t + B * j) (8 * B)); [|lia]. unfold lsb_bit; f_equal.
        replace (B * (8 * i + j) + t) with ((i * B) * 8 + (t + B * j)) by lia.
        rewrite Z.div_add_l by lia. f_equal.
        rewrite (Z.add_comm (i * B * 8)), Z.mod_add by lia. reflexivity. }
      assert (Hreg : 0 <= znth (regroup 8 B 64 mu) (8 * i + j) < 2 ^ B).
      { apply inrange_znth; [apply regroup_range; lia|rewrite zlen_regroup; lia]. }
      assert (Hpow : 2 ^ B * 2 ^ (D - B) = 2 ^ D) by (rewrite <- Z.pow_add_r by lia; f_equal; lia).
      pose proof (pow2_le_16 D ltac:(lia)) as HD2. pose proof (Z.pow_pos_nonneg 2 (D - B) ltac:(lia) ltac:(lia)).
      set (kk := znth (regroup 8 B 64 mu) (8 * i + j)) in *.
      assert (Hv : 0 <= kk * 2 ^ (D - B) < 65536).
      { split; [apply Z.mul_nonneg_nonneg; lia|].
        apply Z.lt_le_trans with (2 ^ B * 2 ^ (D - B)); [apply Z.mul_lt_mono_pos_r; lia|lia]. }
      apply wp_bind, wp_shl64; [lia|]. rewrite Epiece. fold kk.
      rewrite Z.shiftl_mul_pow2 by lia. rewrite u64_small by lia. unfold u16; rewrite Z.mod_small by lia.
      apply wp_bind, wp_wr; [lia|]. apply wp_bind, wp_shr64; [lia|]. apply wp_ret.
      split; [lia|split; [rewrite zlen_zset; exact L|split]].
      { rewrite Z.shiftr_shiftr by lia. f_equal; lia. }
      intros t Ht; rewrite znth_zset by lia. destruct (Z.eqb_spec (8 * i + j) t) as [<-|]; [|apply E; lia].
      unfold encode_spec; rewrite znth_map by (rewrite zlen_regroup; lia). reflexivity.
    + intros ((o1, pos1), tmp1) (-> & L1 & _ & E1). apply wp_ret.
      split; [lia|split; [exact L1|]]. intros; apply E1; lia.
  - intros (o, pos) (_ & L & E). apply wp_ret. apply list_ext.
    + unfold encode_spec; rewrite zlen_map, zlen_regroup; lia.
    + intros; apply E; lia.
Qed.

Lemma dc_code x : 0 <= x < 65536 ->
  Z.land (u16 (Z.shiftr (Z.land x (2 ^ D - 1) + 2 ^ (D - B - 1)) (D - B))) (2 ^ B - 1) = dc D B x /\
  0 <= Z.land x (2 ^ D - 1) + 2 ^ (D - B - 1) < 131072.
Proof.
  intros Hx; pose proof HBp as HB; pose proof HDp as HD.
  pose proof (pow2_le_16 D ltac:(lia)) as HD2. pose proof (pow2_le_8 B ltac:(lia)) as HB2.
  rewrite !land_pow2m1 by lia.
  pose proof (Z.mod_pos_bound x (2 ^ D) ltac:(lia)) as Hm.
  pose proof (pow2_le_16 (D - B - 1) ltac:(lia)) as H1.
  pose proof (pow2_le_16 (D - B) ltac:(lia)) as H2.
  assert (E2 : 2 ^ (D - B) = 2 * 2 ^ (D - B - 1)).
  { replace (D - B) with (1 + (D - B - 1)) at 1 by lia. rewrite Z.pow_add_r by lia. reflexivity. }
  assert (ED : 2 ^ D = 2 ^ B * 2 ^ (D - B)) by (rewrite <- Z.pow_add_r by lia; f_equal; lia).
  split; [|lia].
  rewrite Z.shiftr_div_pow2 by lia. set (c := x mod 2 ^ D) in *.
  assert (Hq : 0 <= (c + 2 ^ (D - B - 1)) / 2 ^ (D - B) < 65536).
  { split; [apply Z.div_pos; lia|]. apply Z.div_lt_upper_bound; [lia|]. lia. }
  unfold u16; rewrite (Z.mod_small _ 65536) by exact Hq. unfold dc; fold c. f_equal.
  replace (2 * c * 2 ^ B + 2 ^ D) with ((2 * 2 ^ B) * (c + 2 ^ (D - B - 1))).
  2:{ rewrite ED, E2. rewrite Z.mul_add_distr_l. lia. }
  replace (2 * 2 ^ D) with ((2 * 2 ^ B) * 2 ^ (D - B)) by (rewrite ED; lia).
  rewrite Z.div_mul_cancel_l by lia. reflexivity.
Qed.
Lemma dc_range c : 0 <= dc D B c < 2 ^ B.
Proof. apply Z.mod_pos_bound. apply Z.pow_pos_nonneg; [lia|]. pose proof HBp; lia. Qed.

Lemma key_decode_wp out c : zlen out = 8 * B -> zlen c = 64 -> u16s_ok c ->
  wp (frodo_key_decode P out c) (fun o => o = decode_spec D B c).
Proof.
  intros Lo Lc Uc; pose proof HBp as HB; pose proof HDp as HD.
  unfold frodo_key_decode. fold B D. change (NBAR * NBAR / 8) with 8.
  pose proof (pow2_le_8 B ltac:(lia)) as HB2. pose proof (pow2_le_16 D ltac:(lia)) as HD2.
  apply wp_bind, wp_shl32; [lia|lia|lia|].
  apply wp_bind, wp_i32; [lia|].
  apply wp_bind, wp_shl32; [lia|lia|lia|].
  apply wp_bind, wp_i32; [lia|].
  rewrite !Z.mul_1_l.
  replace (u16 (2 ^ B - 1)) with (2 ^ B - 1) by (unfold u16; rewrite Z.mod_small; lia).
  replace (u16 (2 ^ D - 1)) with (2 ^ D - 1) by (unfold u16; rewrite Z.mod_small; lia).
  apply wp_bind.
  apply (wp_for (fun i '(o, index) => index = 8 * i /\ zlen o = 8 * B /\
     forall t, 0 <= t < i * B -> znth o t = znth (decode_spec D B c) t)).
  - lia.
  - split; [lia|split; [exact Lo|lia]].
  - intros i (o, index) Hi (-> & L & E).
    apply wp_bind; eapply wp_mono with (P := fun '(tl, index) => index = 8 * i + 8 /\ 0 <= tl /\ forall x, 0 <= x < 8 * B ->
      Z.testbit tl x = Z.testbit (dc D B (znth c (8 * i + x / B))) (x mod B)).
    { apply (wp_for (fun j '(tl, index) => index = 8 * i + j /\ 0 <= tl /\ forall x, 0 <= x ->
        Z.testbit tl x = if x <? B * j then Z.testbit (dc D B (znth c (8 * i + x / B))) (x mod B) else false)).
      - lia.
      - split; [lia|split; [lia|]]. intros x Hx; destruct (Z.ltb_spec x (B * 0)); [lia|apply Z.bits_0].
      - intros j (tl, index) Hj (-> & H0 & T).
        assert (Hr : 0 <= znth c (8 * i + j) < 65536) by (apply inrange_znth; [exact Uc|lia]).
        destruct (dc_code _ Hr) as (Edc & Hdr).
        assert (Hh : 2 ^ (D - B - 1) < 2147483648).
        { assert (0 <= Z.land (znth c (8 * i + j)) (2 ^ D - 1)) by (apply Z.land_nonneg; lia). lia. }
        apply wp_bind, wp_rd; [lia|lia|].
        apply wp_bind, wp_shl32; [lia|lia|lia|]. rewrite Z.mul_1_l.
        apply wp_bind, wp_i32; [lia|]. apply wp_bind, wp_shr32; [lia|].
        assert (HBj : 0 <= B * j) by (apply Z.mul_nonneg_nonneg; lia).
        assert (HBj2 : B * j + B <= B * 8) by (pose proof (Z.mul_le_mono_nonneg_l (j + 1) 8 B); lia).
        apply wp_bind, wp_shl64; [lia|]. rewrite Edc.
        pose proof (dc_range (znth c (8 * i + j))) as Hd.
        rewrite u64_shl_byte by lia. apply wp_ret.
        split; [lia|split; [apply Z.lor_nonneg; split; [auto|apply Z.shiftl_nonneg; lia]|]].
        intros x Hx. rewrite Z.lor_spec, T by auto.
        destruct (Z.ltb_spec x (B * j)), (Z.ltb_spec x (B * (j + 1))); try lia.
        + rewrite Z.shiftl_spec_low by lia. apply orb_false_r.
        + rewrite Z.shiftl_spec by lia. cbn [orb].
          replace x with (j * B + (x - B * j)) by lia.
          rewrite Z.div_add_l, (Z.div_small (x - B * j)) by lia.
          rewrite (Z.add_comm (j * B)), Z.mod_add, Z.mod_small by lia. rewrite Z.add_0_r.
          f_equal; lia.
        + rewrite Z.shiftl_spec by lia. cbn [orb]. apply (testbit_small _ B); [exact Hd|lia].
      - intros (tl, index) (-> & H0 & T). split; [lia|split; [exact H0|]]. intros x Hx; rewrite T by lia.
        destruct (Z.ltb_spec x (B * 8)); [reflexivity|lia]. }
    intros (tl, index) (-> & Ht0 & T).
    apply wp_bind. apply (wp_for (fun j o => zlen o = 8 * B /\
       forall t, 0 <= t < i * B + j -> znth o t = znth (decode_spec D B c) t)).
    + lia.
    + split; [exact L|]. intros; apply E; lia.
    + clear o L E. intros j o Hj (L & E).
      assert (HiB : 0 <= i * B) by (apply Z.mul_nonneg_nonneg; lia).
      assert (HiB2 : i * B + B <= 8 * B) by (pose proof (Z.mul_le_mono_nonneg_r (i + 1) 8 B); lia).
      apply wp_bind, wp_shr64; [lia|]. apply wp_wr; [lia|].
      split; [rewrite zlen_zset; exact L|]. intros t Ht; rewrite znth_zset by lia.
      destruct (Z.eqb_spec (i * B + j) t) as [<-|]; [|apply E; lia].
      unfold decode_spec, regroup; rewrite znth_ztab by lia.
      change 255 with (2 ^ 8 - 1). rewrite land_pow2m1 by lia. unfold u8. change (2 ^ 8) with 256.
      rewrite Z.mod_mod by lia. change 256 with (2 ^ 8). rewrite mod_pow2_lsb by lia.
      apply zsum_ext; intros u Hu; f_equal. rewrite Z.shiftr_spec, T by lia.
      unfold lsb_bit; f_equal.
      replace (8 * (i * B + j) + u) with ((8 * i) * B + (u + 8 * j)) by lia.
      rewrite Z.div_add_l by lia. rewrite (Z.add_comm (8 * i * B)), Z.mod_add by lia.
      assert (Hx : 0 <= (u + 8 * j) / B < 8) by (split; [apply Z.div_pos; lia|apply Z.div_lt_upper_bound; lia]).
      rewrite znth_map by lia. reflexivity.
    + intros o1 (L1 & E1). apply wp_ret. split; [lia|split; [exact L1|]]. intros; apply E1; lia.
  - intros (o, index) (_ & L & E). apply wp_ret. apply list_ext.
    + unfold decode_spec; rewrite zlen_regroup; lia.
    + intros; apply E; lia.
Qed.
End Ops.
