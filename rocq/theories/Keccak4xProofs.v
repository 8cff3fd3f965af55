(** The functions of Keccak4x.v act on four separate byte strings of 200 bytes. *)
From Verif Require Import CSem Params Fips202 KeccakSpec KeccakProofs ShakeProofs Fips202x4 Fips202x4Proofs Keccak4x Keccak4xSpec.

(* ================================================================== *)
(** * Bytes of 64-bit values *)

Lemma by8_range v t : 0 <= by8 v t < 256.
Proof. unfold by8; apply Z.mod_pos_bound; lia. Qed.
Lemma by8_testbit v t z : 0 <= t -> 0 <= z < 8 -> Z.testbit (by8 v t) z = Z.testbit v (8 * t + z).
Proof.
  intros; unfold by8. change 256 with (2 ^ 8). rewrite Z.mod_pow2_bits_low by lia.
  rewrite <- Z.shiftr_div_pow2, Z.shiftr_spec by lia. f_equal; lia.
Qed.
Lemma byte_ext a b : 0 <= a < 256 -> 0 <= b < 256 -> (forall z, 0 <= z < 8 -> Z.testbit a z = Z.testbit b z) -> a = b.
Proof.
  intros Ha Hb H. apply Z.bits_inj'; intros z Hz. destruct (Z.ltb_spec z 8); [apply H; lia|].
  rewrite !(testbit_high 8) by (try lia; change (2 ^ 8) with 256; lia). reflexivity.
Qed.
Lemma lxor_byte a b : 0 <= a < 256 -> 0 <= b < 256 -> 0 <= Z.lxor a b < 256.
Proof.
  intros Ha Hb. change 256 with (2 ^ 8) in *.
  assert (0 <= Z.lxor a b) by (apply Z.lxor_nonneg; lia).
  split; [auto|]. destruct (Z.eqb_spec (Z.lxor a b) 0) as [->|N]; [lia|].
  apply Z.log2_lt_pow2; [lia|].
  pose proof (Z.log2_lxor a b ltac:(lia) ltac:(lia)) as L.
  assert (Z.log2 a < 8) by (destruct (Z.eqb_spec a 0) as [->|]; [reflexivity|apply Z.log2_lt_pow2; lia]).
  assert (Z.log2 b < 8) by (destruct (Z.eqb_spec b 0) as [->|]; [reflexivity|apply Z.log2_lt_pow2; lia]).
  lia.
Qed.
Lemma by8_xor a b t : 0 <= t -> by8 (xor64 a b) t = Z.lxor (by8 a t) (by8 b t).
Proof.
  intros Ht. apply byte_ext; [apply by8_range|apply lxor_byte; apply by8_range|].
  intros z Hz. unfold xor64. rewrite Z.lxor_spec, !by8_testbit, Z.lxor_spec by lia. reflexivity.
Qed.

Lemma load64_by m off : 0 <= off -> off + 8 <= zlen m -> byte_in m off 8 ->
  wp (load64 m off) (fun y => 0 <= y < M64 /\ forall t, 0 <= t < 8 -> by8 y t = znth m (off + t)).
Proof.
  intros Ho Hl Hb. eapply wp_mono; [now apply load64_wp|]. intros y (Hy & Hz); split; [auto|].
  intros t Ht. apply byte_ext; [apply by8_range|apply Hb; lia|].
  intros z Hzz. rewrite by8_testbit, Hz by lia. f_equal; [f_equal; dlia|dlia].
Qed.
Lemma store64_by h off u : 0 <= off -> off + 8 <= zlen h -> 0 <= u ->
  wp (store64 h off u) (fun h' => zlen h' = zlen h /\
    forall j, znth h' j = if (off <=? j) && (j <? off + 8) then by8 u (j - off) else znth h j).
Proof. exact (store64_wp h off u). Qed.

(* ================================================================== *)
(** * The byte k of instance l *)

Definition st_ok (ss : list Z) : Prop := zlen ss = 800 /\ bytes_ok ss.

Lemma zlen_inst l ss : zlen (inst l ss) = 200. Proof. apply zlen_ztab; lia. Qed.
Lemma znth_inst l ss k : 0 <= k < 200 -> znth (inst l ss) k = znth ss (pos l k).
Proof. intros; unfold inst; now rewrite znth_ztab. Qed.
Lemma pos_range l k : 0 <= l < 4 -> 0 <= k < 200 -> 0 <= pos l k < 800.
Proof. intros; unfold pos; dlia. Qed.
Lemma pos_surj j : 0 <= j < 800 -> exists l k, 0 <= l < 4 /\ 0 <= k < 200 /\ j = pos l k.
Proof. intros; exists ((j mod 32) / 8), (8 * (j / 32) + j mod 8); unfold pos; repeat split; dlia. Qed.
Lemma inst_ok l ss : 0 <= l < 4 -> st_ok ss -> bytes_ok (inst l ss).
Proof. intros Hl (_ & H). apply inrange_ztab; intros; apply inrange_znth_all; auto; lia. Qed.
Lemma st_ok_intro ss : zlen ss = 800 -> (forall l, 0 <= l < 4 -> bytes_ok (inst l ss)) -> st_ok ss.
Proof.
  intros Hs H; split; [auto|]. apply inrange_intro; intros j Hj. rewrite Hs in Hj.
  destruct (pos_surj j Hj) as (l & k & Hl & Hk & ->). rewrite <- znth_inst by auto.
  apply inrange_znth_all; [lia|now apply H].
Qed.
(** Two byte strings of 200 bytes. *)
Lemma inst_ext l ss S : zlen S = 200 -> (forall k, 0 <= k < 200 -> znth ss (pos l k) = znth S k) -> inst l ss = S.
Proof.
  intros HS H. apply list_ext; rewrite zlen_inst; [auto|]. intros k Hk. rewrite znth_inst by auto. auto.
Qed.
Lemma st_byte ss j : st_ok ss -> 0 <= znth ss j < 256.
Proof. intros (_ & H); apply inrange_znth_all; auto; lia. Qed.

Lemma laneAddr_pos l p t : 0 <= t < 8 -> laneAddr l p + t = pos l (8 * p + t).
Proof. intros; unfold laneAddr, pos; dlia. Qed.

Lemma ld_lane ss l p : st_ok ss -> 0 <= l < 4 -> 0 <= p < 25 ->
  wp (load64 ss (laneAddr l p)) (fun y => 0 <= y < M64 /\ forall t, 0 <= t < 8 -> by8 y t = znth ss (pos l (8 * p + t))).
Proof.
  intros (Hs & Hok) Hl Hp. eapply wp_mono; [apply load64_by|].
  - unfold laneAddr; lia.
  - unfold laneAddr; lia.
  - now apply bytes_ok_byte_in.
  - intros y (Hy & H); split; [auto|]. intros t Ht. rewrite H, laneAddr_pos by lia. reflexivity.
Qed.
Lemma sto_lane ss l p v : zlen ss = 800 -> 0 <= l < 4 -> 0 <= p < 25 -> 0 <= v ->
  wp (store64 ss (laneAddr l p) v) (fun ss' => zlen ss' = 800 /\ forall l' k, 0 <= l' < 4 -> 0 <= k < 200 ->
     znth ss' (pos l' k) = if (l' =? l) && (k / 8 =? p) then by8 v (k mod 8) else znth ss (pos l' k)).
Proof.
  intros Hs Hl Hp Hv. eapply wp_mono; [apply store64_by; unfold laneAddr; lia|].
  intros ss' (Hs' & H); split; [lia|]. intros l' k Hl' Hk. rewrite H.
  destruct (Z.eqb_spec l' l); destruct (Z.eqb_spec (k / 8) p); cbn [andb].
  - subst. destruct (Z.leb_spec (laneAddr l (k / 8)) (pos l k)); [|exfalso; unfold laneAddr, pos in *; dlia].
    destruct (Z.ltb_spec (pos l k) (laneAddr l (k / 8) + 8)); [|exfalso; unfold laneAddr, pos in *; dlia].
    cbn [andb]. f_equal. unfold laneAddr, pos; lia.
  - destruct (Z.leb_spec (laneAddr l p) (pos l' k)); [|reflexivity].
    destruct (Z.ltb_spec (pos l' k) (laneAddr l p + 8)); [|reflexivity]. exfalso; unfold laneAddr, pos in *; dlia.
  - destruct (Z.leb_spec (laneAddr l p) (pos l' k)); [|reflexivity].
    destruct (Z.ltb_spec (pos l' k) (laneAddr l p + 8)); [|reflexivity]. exfalso; unfold laneAddr, pos in *; dlia.
  - destruct (Z.leb_spec (laneAddr l p) (pos l' k)); [|reflexivity].
    destruct (Z.ltb_spec (pos l' k) (laneAddr l p + 8)); [|reflexivity]. exfalso; unfold laneAddr, pos in *; dlia.
Qed.

(* ================================================================== *)
(** * The loop over whole lanes of one instance *)

Lemma lanes_loop {S} (I : Z -> S -> Prop) offset length (body : S * Z * Z * Z -> res ((S * Z * Z * Z) * bool)) s lp c :
  0 <= offset -> 0 <= c <= length -> (c < length -> (offset + c) mod 8 = 0 /\ lp = (offset + c) / 8) -> I c s ->
  (forall s c, (offset + c) mod 8 = 0 -> 0 <= c -> c + 8 <= length -> I c s ->
     wp (body (s, length - c, (offset + c) / 8, c)) (fun r => exists s',
        r = ((s', length - c - 8, (offset + c) / 8 + 1, c + 8), true) /\ I (c + 8) s')) ->
  (forall s sl lp c, sl < 8 -> wp (body (s, sl, lp, c)) (fun r => r = ((s, sl, lp, c), false))) ->
  wp (loop (Z.to_nat ((length - c) / 8 + 1)) body (s, length - c, lp, c)) (fun r => exists s' lp' c',
     r = (s', length - c', lp', c') /\ I c' s' /\ 0 <= c' <= length /\ length - c' < 8 /\
     (c' < length -> (offset + c') mod 8 = 0 /\ lp' = (offset + c') / 8)).
Proof.
  intros Ho Hc Hlp HI Hstep Hstop.
  eapply wp_loop with (mu := fun '(_, sl, _, _) => Z.to_nat (sl / 8))
    (I := fun r => exists s' lp' c', r = (s', length - c', lp', c') /\ I c' s' /\ 0 <= c' <= length /\
       (c' < length -> (offset + c') mod 8 = 0 /\ lp' = (offset + c') / 8)).
  - exists s, lp, c; auto.
  - pose proof (Z.div_pos (length - c) 8 ltac:(lia) ltac:(lia)). lia.
  - intros (((s1, sl1), lp1), c1) (s' & lp' & c' & E & HI' & Hc' & Hlp'). injection E as -> -> -> ->.
    destruct (Z.leb_spec 8 (length - c')) as [L|L].
    + destruct (Hlp' ltac:(lia)) as (M & ->).
      eapply wp_mono; [apply Hstep; auto; lia|]. intros r (s2 & -> & HI2). cbn [fst snd]. split.
      * exists s2, ((offset + c') / 8 + 1), (c' + 8). split; [f_equal; f_equal; f_equal; lia|]. split; [auto|split; [lia|]].
        intros _; split; dlia.
      * replace ((length - c') / 8) with ((length - c' - 8) / 8 + 1) by dlia.
        pose proof (Z.div_pos (length - c' - 8) 8 ltac:(lia) ltac:(lia)). lia.
    + eapply wp_mono; [apply Hstop; lia|]. intros r ->. cbn [fst snd].
      exists s', lp', c'. split; [auto|split; [auto|split; [lia|split; [lia|auto]]]].
Qed.

Lemma first_bytes_wp off len : wp (first_bytes off len) (fun n => n = Z.min (8 - off) len).
Proof.
  unfold first_bytes; cbv zeta. apply wp_branch; intros H; [apply Z.ltb_lt in H|apply Z.ltb_ge in H]; apply wp_ret; lia.
Qed.

(** A store into the range [lo, hi) of the bytes of one instance. *)
Definition done (l lo hi : Z) (f : Z -> Z) (ss0 ss : list Z) : Prop :=
  zlen ss = 800 /\ forall l' k, 0 <= l' < 4 -> 0 <= k < 200 ->
    znth ss (pos l' k) = if (l' =? l) && (lo <=? k) && (k <? hi) then f k else znth ss0 (pos l' k).

Lemma done_ok l lo hi f ss0 ss : st_ok ss0 -> (forall k, lo <= k < hi -> 0 <= f k < 256) -> done l lo hi f ss0 ss -> st_ok ss.
Proof.
  intros H0 Hf (Hs & H); split; [auto|]. apply inrange_intro; intros j Hj. rewrite Hs in Hj.
  destruct (pos_surj j Hj) as (l' & k & Hl & Hk & ->). rewrite H by auto.
  destruct (l' =? l); cbn [andb]; [|now apply st_byte].
  destruct (Z.leb_spec lo k); destruct (Z.ltb_spec k hi); cbn [andb]; try (now apply st_byte). apply Hf; lia.
Qed.
Lemma done_refl l lo f ss : zlen ss = 800 -> done l lo lo f ss ss.
Proof.
  intros H; split; [auto|]. intros l' k _ _. destruct (l' =? l); cbn [andb]; [|reflexivity].
  destruct (Z.leb_spec lo k); destruct (Z.ltb_spec k lo); cbn [andb]; try reflexivity; lia.
Qed.
(** Extending the range by bytes of one lane. *)
Lemma done_extend l lo mid hi f ss0 ss ss' : lo <= mid <= hi ->
  done l lo mid f ss0 ss -> zlen ss' = 800 ->
  (forall l' k, 0 <= l' < 4 -> 0 <= k < 200 ->
     znth ss' (pos l' k) = if (l' =? l) && (mid <=? k) && (k <? hi) then f k else znth ss (pos l' k)) ->
  done l lo hi f ss0 ss'.
Proof.
  intros Hm (_ & H) Hs H'; split; [auto|]. intros l' k Hl Hk. rewrite H', H by auto.
  destruct (l' =? l); cbn [andb]; [|reflexivity].
  destruct (Z.leb_spec mid k); destruct (Z.ltb_spec k hi); destruct (Z.leb_spec lo k); destruct (Z.ltb_spec k mid);
    cbn [andb]; reflexivity || lia.
Qed.

Lemma memcpy_znth dst d src o n : 0 <= d -> 0 <= o -> 0 <= n -> d + n <= zlen dst -> o + n <= zlen src ->
  wp (memcpy dst d src o n) (fun r => zlen r = zlen dst /\
    forall j, 0 <= j -> znth r j = if (d <=? j) && (j <? d + n) then znth src (o + (j - d)) else znth dst j).
Proof.
  intros. apply wp_memcpy; auto. split; [apply zlen_zsplice; auto; rewrite zlen_zslice; lia|].
  intros j Hj. rewrite znth_zsplice by (rewrite ?zlen_zslice; lia). rewrite zlen_zslice by lia.
  destruct (Z.leb_spec d j); destruct (Z.ltb_spec j (d + n)); cbn [andb]; try reflexivity.
  now rewrite znth_zslice by lia.
Qed.

(* ================================================================== *)
(** * Functions on the bytes of one instance *)

(** What a store of one lane does, as far as the bytes mid, ..., hi - 1 of that lane are concerned. *)
Lemma lane_extend l p lo mid hi f ss0 ss ss' (g : Z -> Z) : lo <= mid <= hi -> 8 * p <= mid -> hi <= 8 * p + 8 ->
  done l lo mid f ss0 ss -> zlen ss' = 800 ->
  (forall l' k, 0 <= l' < 4 -> 0 <= k < 200 ->
     znth ss' (pos l' k) = if (l' =? l) && (k / 8 =? p) then g k else znth ss (pos l' k)) ->
  (forall k, 0 <= k < 200 -> 8 * p <= k < 8 * p + 8 -> g k = if (mid <=? k) && (k <? hi) then f k else znth ss (pos l k)) ->
  done l lo hi f ss0 ss'.
Proof.
  intros Hm Hp1 Hp2 D Hs H G. apply done_extend with (mid := mid) (ss := ss); auto.
  intros l' k Hl Hk. rewrite H by auto.
  destruct (Z.eqb_spec l' l) as [->|]; cbn [andb]; [|reflexivity].
  destruct (Z.eqb_spec (k / 8) p) as [E|N].
  - apply G; auto. dlia.
  - destruct (Z.leb_spec mid k); destruct (Z.ltb_spec k hi); cbn [andb]; try reflexivity. exfalso; apply N; dlia.
Qed.

Section AddB.
Variables (ss0 : list Z) (l : Z) (data : list Z) (offset length : Z).
Hypothesis Hok : st_ok ss0.
Hypothesis Hl : 0 <= l < 4.
Hypothesis Hd : bytes_ok data.
Hypothesis Ho : 0 <= offset.
Hypothesis Hlen : 0 <= length <= zlen data.
Hypothesis Hroom : offset + length <= 200.

Let fx (k : Z) : Z := Z.lxor (znth ss0 (pos l k)) (znth data (k - offset)).
Let D (c : Z) (s : list Z) : Prop := done l offset (offset + c) fx ss0 s.

Lemma data_byte j : 0 <= znth data j < 256.
Proof. apply inrange_znth_all; auto; lia. Qed.
Lemma fx_range k : 0 <= fx k < 256.
Proof. apply lxor_byte; [now apply st_byte|apply data_byte]. Qed.
Lemma D_ok c s : D c s -> st_ok s.
Proof. intros H; eapply done_ok; [exact Hok| |exact H]. intros; apply fx_range. Qed.
(** A byte that is not done yet. *)
Lemma D_old c s k : D c s -> 0 <= k < 200 -> offset + c <= k -> znth s (pos l k) = znth ss0 (pos l k).
Proof.
  intros (_ & H) Hk Hc. rewrite H by auto. rewrite Z.eqb_refl; cbn [andb].
  destruct (Z.leb_spec offset k); destruct (Z.ltb_spec k (offset + c)); cbn [andb]; auto; lia.
Qed.

(** XORing y, which holds the bytes c, ..., c + n - 1 of the data at the right place and zeroes elsewhere. *)
Lemma add_lane s c n p y : D c s -> 0 <= c -> 0 <= n -> c + n <= length -> 8 * p <= offset + c -> offset + c + n <= 8 * p + 8 ->
  0 <= p < 25 -> 0 <= y ->
  (forall t, 0 <= t < 8 -> by8 y t = if (offset + c <=? 8 * p + t) && (8 * p + t <? offset + c + n) then znth data (8 * p + t - offset) else 0) ->
  forall x, 0 <= x < M64 -> (forall t, 0 <= t < 8 -> by8 x t = znth s (pos l (8 * p + t))) ->
  wp (store64 s (laneAddr l p) (xor64 x y)) (D (c + n)).
Proof.
  intros HD Hc Hn Hcn Hp1 Hp2 Hp Hy0 Hy x Hx Hxb.
  eapply wp_mono; [apply sto_lane; [apply (D_ok c s HD)|auto|auto|apply Z.lxor_nonneg; lia]|].
  intros s' (Hs' & H).
  apply (lane_extend l p offset (offset + c) (offset + (c + n)) fx ss0 s s' (fun k => by8 (xor64 x y) (k mod 8))); auto; try lia.
  intros k Hk Hkp. rewrite by8_xor by dlia.
  assert (E : k = 8 * p + k mod 8) by dlia. assert (0 <= k mod 8 < 8) by dlia.
  rewrite Hxb, Hy by lia. rewrite <- E. replace (offset + (c + n)) with (offset + c + n) by lia.
  destruct (Z.leb_spec (offset + c) k); destruct (Z.ltb_spec k (offset + c + n)); cbn [andb]; try (now rewrite Z.lxor_0_r).
  unfold fx. f_equal. apply (D_old c); auto.
Qed.

Lemma AddBytes_wp : wp (AddBytes ss0 l data offset length) (fun ss => done l offset (offset + length) fx ss0 ss).
Proof.
  unfold AddBytes; cbv zeta. apply wp_bind.
  eapply wp_mono with (P := fun r => exists s lp c, r = (s, length - c, lp, c) /\ D c s /\ 0 <= c <= length /\
    (c < length -> (offset + c) mod 8 = 0 /\ lp = (offset + c) / 8)).
  { apply wp_branch; intros B.
    - apply andb_prop in B. destruct B as (B1 & B2). apply Z.ltb_lt in B1. apply negb_true_iff in B2. apply Z.eqb_neq in B2.
      assert (Hm : 0 < offset mod 8 < 8) by dlia.
      apply wp_bind. eapply wp_mono; [apply first_bytes_wp|]. intros n En. cbv beta in *.
      assert (Hn : 0 < n) by lia.
      apply wp_bind. eapply wp_mono; [apply memcpy_znth; rewrite ?zlen_zrep; lia|]. intros lane (Hln & Hlane). rewrite zlen_zrep in Hln by lia.
      assert (Hp : 0 <= offset / 8 < 25) by dlia.
      apply wp_bind. eapply wp_mono; [apply ld_lane; auto|]. intros x (Hx & Hxb).
      apply wp_bind. eapply wp_mono; [apply load64_by; try lia|].
      { intros j Hj. rewrite Hlane by lia. destruct (_ && _); [apply data_byte|]. rewrite znth_zrep; [|lia]. lia. }
      intros y (Hy & Hyb). apply wp_bind.
      eapply wp_mono; [apply (add_lane ss0 0 n (offset / 8) y)|].
      + unfold D. rewrite Z.add_0_r. apply done_refl. apply Hok.
      + lia. + lia. + lia. + dlia. + dlia. + lia. + lia.
      + intros t Ht. rewrite Hyb, Hlane by lia. rewrite znth_zrep by lia.
        assert (E : offset = 8 * (offset / 8) + offset mod 8) by dlia.
        destruct (Z.leb_spec (offset mod 8) (0 + t)); destruct (Z.ltb_spec (0 + t) (offset mod 8 + n));
        destruct (Z.leb_spec (offset + 0) (8 * (offset / 8) + t)); destruct (Z.ltb_spec (8 * (offset / 8) + t) (offset + 0 + n));
          cbn [andb]; try reflexivity; try lia. f_equal; lia.
      + exact Hx. + exact Hxb.
      + intros s Hs. apply wp_ret. exists s, (offset / 8 + 1), n. split; [reflexivity|]. split; [exact Hs|]. split; [lia|].
        intros L. assert (n = 8 - offset mod 8) by lia. split; dlia.
    - apply wp_ret. exists ss0, (offset / 8), 0. split; [do 3 f_equal; lia|]. split; [unfold D; rewrite Z.add_0_r; apply done_refl, Hok|].
      split; [lia|]. intros L. apply andb_false_iff in B. destruct B as [B|B]; [apply Z.ltb_ge in B; lia|].
      apply negb_false_iff, Z.eqb_eq in B. rewrite Z.add_0_r. split; [exact B|reflexivity]. }
  intros r (s & lp & c & -> & HD & Hc & Hlp). cbv beta iota. apply wp_bind.
  eapply wp_mono.
  { apply (lanes_loop D offset length); auto.
    - intros s1 c1 Hm Hc1 Hcl HD1. cbv beta iota. apply wp_branch; intros B; [|apply Z.leb_gt in B; lia].
      assert (Hp : 0 <= (offset + c1) / 8 < 25) by dlia.
      apply wp_bind. eapply wp_mono; [apply load64_by; [lia|lia|]|].
      { intros j Hj; apply data_byte. }
      intros y (Hy & Hyb). apply wp_bind. eapply wp_mono; [apply ld_lane; auto; now apply (D_ok c1)|].
      intros x (Hx & Hxb). apply wp_bind.
      eapply wp_mono; [apply (add_lane s1 c1 8 ((offset + c1) / 8) y); auto; try lia; try dlia|].
      { intros t Ht. rewrite Hyb by lia.
        assert (E : offset + c1 = 8 * ((offset + c1) / 8)) by dlia.
        destruct (Z.leb_spec (offset + c1) (8 * ((offset + c1) / 8) + t)); [|lia].
        destruct (Z.ltb_spec (8 * ((offset + c1) / 8) + t) (offset + c1 + 8)); [|lia]. cbn [andb]. f_equal; lia. }
      intros s' HD'. apply wp_ret. exists s'; split; auto.
    - intros s1 sl lp1 c1 L. cbv beta iota. apply wp_branch; intros B; [apply Z.leb_le in B; lia|]. now apply wp_ret. }
  intros r (s' & lp' & c' & -> & HD' & Hc' & Hr & Hlp'). cbv beta iota.
  apply wp_branch; intros B; [apply Z.ltb_lt in B|apply Z.ltb_ge in B].
  - destruct (Hlp' ltac:(lia)) as (Hm & ->). assert (Hp : 0 <= (offset + c') / 8 < 25) by dlia.
    apply wp_bind. eapply wp_mono; [apply memcpy_znth; rewrite ?zlen_zrep; lia|]. intros lane (Hln & Hlane). rewrite zlen_zrep in Hln by lia.
    apply wp_bind. eapply wp_mono; [apply ld_lane; auto; now apply (D_ok c')|]. intros x (Hx & Hxb).
    apply wp_bind. eapply wp_mono; [apply load64_by; try lia|].
    { intros j Hj. rewrite Hlane by lia. destruct (_ && _); [apply data_byte|]. rewrite znth_zrep; [|lia]. lia. }
    intros y (Hy & Hyb).
    eapply wp_mono; [apply (add_lane s' c' (length - c') ((offset + c') / 8) y); auto; try lia; try dlia|].
    + intros t Ht. rewrite Hyb, Hlane by lia. rewrite znth_zrep by lia.
      assert (E : offset + c' = 8 * ((offset + c') / 8)) by dlia.
      destruct (Z.leb_spec 0 (0 + t)); [|lia]. destruct (Z.ltb_spec (0 + t) (0 + (length - c')));
      destruct (Z.leb_spec (offset + c') (8 * ((offset + c') / 8) + t));
      destruct (Z.ltb_spec (8 * ((offset + c') / 8) + t) (offset + c' + (length - c')));
        cbn [andb]; try reflexivity; try lia. f_equal; lia.
    + intros ss HDs. unfold D in HDs. replace (offset + (c' + (length - c'))) with (offset + length) in HDs by lia. exact HDs.
  - apply wp_ret. unfold D in HD'. replace c' with length in HD' by lia. exact HD'.
Qed.
End AddB.

(** memcpy into one lane. *)
Lemma memcpy_lane ss l p t0 src o n : zlen ss = 800 -> 0 <= l < 4 -> 0 <= p < 25 -> 0 <= t0 -> 0 <= n -> t0 + n <= 8 ->
  0 <= o -> o + n <= zlen src ->
  wp (memcpy ss (laneAddr l p + t0) src o n) (fun ss' => zlen ss' = 800 /\ forall l' k, 0 <= l' < 4 -> 0 <= k < 200 ->
     znth ss' (pos l' k) = if (l' =? l) && (8 * p + t0 <=? k) && (k <? 8 * p + t0 + n)
                           then znth src (o + (k - (8 * p + t0))) else znth ss (pos l' k)).
Proof.
  intros Hs Hl Hp Ht Hn Htn Ho Hsrc. eapply wp_mono; [apply memcpy_znth; unfold laneAddr; lia|].
  intros r (Hr & H). split; [lia|]. intros l' k Hl' Hk. pose proof (pos_range l' k Hl' Hk).
  rewrite H by lia.
  destruct (Z.eqb_spec l' l) as [->|N]; cbn [andb].
  - destruct (Z.leb_spec (8 * p + t0) k); destruct (Z.ltb_spec k (8 * p + t0 + n)); cbn [andb];
    destruct (Z.leb_spec (laneAddr l p + t0) (pos l k)); destruct (Z.ltb_spec (pos l k) (laneAddr l p + t0 + n)); cbn [andb];
      try reflexivity; try (exfalso; unfold laneAddr, pos in *; dlia).
    f_equal. unfold laneAddr, pos in *; dlia.
  - destruct (Z.leb_spec (laneAddr l p + t0) (pos l' k)); destruct (Z.ltb_spec (pos l' k) (laneAddr l p + t0 + n)); cbn [andb];
      try reflexivity; exfalso; unfold laneAddr, pos in *; dlia.
Qed.

Section PutB.
Variables (ss0 : list Z) (l : Z) (data : list Z) (offset length : Z).
Hypothesis Hok : st_ok ss0.
Hypothesis Hl : 0 <= l < 4.
Hypothesis Hd : bytes_ok data.
Hypothesis Ho : 0 <= offset.
Hypothesis Hlen : 0 <= length <= zlen data.
Hypothesis Hroom : offset + length <= 200.

Let fp (k : Z) : Z := znth data (k - offset).
Let D (c : Z) (s : list Z) : Prop := done l offset (offset + c) fp ss0 s.

Lemma put_part s c n p t0 : D c s -> 0 <= c -> 0 <= n -> c + n <= length -> offset + c = 8 * p + t0 -> 0 <= t0 ->
  t0 + n <= 8 -> 0 <= p < 25 -> wp (memcpy s (laneAddr l p + t0) data c n) (D (c + n)).
Proof.
  intros HD Hc Hn Hcn Hp Ht0 Htn Hpr.
  eapply wp_mono; [apply memcpy_lane; auto; try lia; apply HD|]. intros s' (Hs' & H).
  apply done_extend with (mid := offset + c) (ss := s); auto; try lia.
  intros l' k Hl' Hk. rewrite H by auto. rewrite <- Hp. replace (offset + (c + n)) with (offset + c + n) by lia.
  destruct (Z.eqb_spec l' l) as [->|]; cbn [andb]; [|reflexivity].
  destruct (_ && _); [|reflexivity]. unfold fp. f_equal; lia.
Qed.

Lemma OverwriteBytes_wp : wp (OverwriteBytes ss0 l data offset length) (fun ss => done l offset (offset + length) fp ss0 ss).
Proof.
  unfold OverwriteBytes; cbv zeta. apply wp_bind.
  eapply wp_mono with (P := fun r => exists s lp c, r = (s, length - c, lp, c) /\ D c s /\ 0 <= c <= length /\
    (c < length -> (offset + c) mod 8 = 0 /\ lp = (offset + c) / 8)).
  { apply wp_branch; intros B.
    - apply andb_prop in B. destruct B as (B1 & B2). apply Z.ltb_lt in B1. apply negb_true_iff in B2. apply Z.eqb_neq in B2.
      assert (Hm : 0 < offset mod 8 < 8) by dlia.
      apply wp_bind. eapply wp_mono; [apply first_bytes_wp|]. intros n En. cbv beta in *.
      assert (Hn : 0 < n) by lia. assert (Hp : 0 <= offset / 8 < 25) by dlia.
      apply wp_bind. eapply wp_mono; [apply (put_part ss0 0 n (offset / 8) (offset mod 8)); try lia|].
      + unfold D. rewrite Z.add_0_r. apply done_refl. apply Hok.
      + dlia.
      + intros s Hs. apply wp_ret. exists s, (offset / 8 + 1), n. split; [reflexivity|]. split; [exact Hs|]. split; [lia|].
        intros L. assert (n = 8 - offset mod 8) by lia. split; dlia.
    - apply wp_ret. exists ss0, (offset / 8), 0. split; [do 3 f_equal; lia|]. split; [unfold D; rewrite Z.add_0_r; apply done_refl, Hok|].
      split; [lia|]. intros L. apply andb_false_iff in B. destruct B as [B|B]; [apply Z.ltb_ge in B; lia|].
      apply negb_false_iff, Z.eqb_eq in B. rewrite Z.add_0_r. split; [exact B|reflexivity]. }
  intros r (s & lp & c & -> & HD & Hc & Hlp). cbv beta iota. apply wp_bind.
  eapply wp_mono.
  { apply (lanes_loop D offset length); auto.
    - intros s1 c1 Hm Hc1 Hcl HD1. cbv beta iota. apply wp_branch; intros B; [|apply Z.leb_gt in B; lia].
      assert (Hp : 0 <= (offset + c1) / 8 < 25) by dlia.
      apply wp_bind. eapply wp_mono; [apply load64_by; [lia|lia|]|].
      { intros j Hj. apply inrange_znth_all; auto; lia. }
      intros y (Hy & Hyb). apply wp_bind.
      eapply wp_mono; [apply sto_lane; [apply HD1|auto|auto|lia]|]. intros s' (Hs' & H).
      apply wp_ret. exists s'; split; [auto|].
      apply (lane_extend l ((offset + c1) / 8) offset (offset + c1) (offset + (c1 + 8)) fp ss0 s1 s' (fun k => by8 y (k mod 8)));
        auto; try lia; try dlia.
      intros k Hk Hkp. rewrite Hyb by dlia.
      destruct (Z.leb_spec (offset + c1) k); [|exfalso; dlia]. destruct (Z.ltb_spec k (offset + (c1 + 8))); [|exfalso; dlia].
      cbn [andb]. unfold fp. f_equal. dlia.
    - intros s1 sl lp1 c1 L. cbv beta iota. apply wp_branch; intros B; [apply Z.leb_le in B; lia|]. now apply wp_ret. }
  intros r (s' & lp' & c' & -> & HD' & Hc' & Hr & Hlp'). cbv beta iota.
  apply wp_branch; intros B; [apply Z.ltb_lt in B|apply Z.ltb_ge in B].
  - destruct (Hlp' ltac:(lia)) as (Hm & ->). assert (Hp : 0 <= (offset + c') / 8 < 25) by dlia.
    rewrite <- (Z.add_0_r (laneAddr l ((offset + c') / 8))).
    eapply wp_mono; [apply (put_part s' c' (length - c') ((offset + c') / 8) 0); auto; try lia; dlia|].
    intros ss HDs. unfold D in HDs. replace (offset + (c' + (length - c'))) with (offset + length) in HDs by lia. exact HDs.
  - apply wp_ret. unfold D in HD'. replace c' with length in HD' by lia. exact HD'.
Qed.
End PutB.

Lemma memset_lane ss l p n : zlen ss = 800 -> 0 <= l < 4 -> 0 <= p < 25 -> 0 <= n <= 8 ->
  wp (memset ss (laneAddr l p) 0 n) (fun ss' => zlen ss' = 800 /\ forall l' k, 0 <= l' < 4 -> 0 <= k < 200 ->
     znth ss' (pos l' k) = if (l' =? l) && (8 * p <=? k) && (k <? 8 * p + n) then 0 else znth ss (pos l' k)).
Proof.
  intros Hs Hl Hp Hn. apply wp_memset; [unfold laneAddr; lia|lia|unfold laneAddr; lia|].
  split; [rewrite zlen_zsplice; [auto|unfold laneAddr; lia|rewrite zlen_zrep; unfold laneAddr; lia]|].
  intros l' k Hl' Hk. rewrite znth_zsplice; [|unfold laneAddr; lia|rewrite zlen_zrep; unfold laneAddr; lia].
  rewrite zlen_zrep, znth_zrep0 by lia.
  destruct (Z.eqb_spec l' l) as [->|N]; cbn [andb].
  - destruct (Z.leb_spec (8 * p) k); destruct (Z.ltb_spec k (8 * p + n)); cbn [andb];
    destruct (Z.leb_spec (laneAddr l p) (pos l k)); destruct (Z.ltb_spec (pos l k) (laneAddr l p + n)); cbn [andb];
      try reflexivity; exfalso; unfold laneAddr, pos in *; dlia.
  - destruct (Z.leb_spec (laneAddr l p) (pos l' k)); destruct (Z.ltb_spec (pos l' k) (laneAddr l p + n)); cbn [andb];
      try reflexivity; exfalso; unfold laneAddr, pos in *; dlia.
Qed.

Lemma by8_0 t : by8 0 t = 0.
Proof. unfold by8. now rewrite Zdiv_0_l. Qed.

Lemma OverwriteWithZeroes_wp ss0 l n : zlen ss0 = 800 -> 0 <= l < 4 -> 0 <= n <= 200 ->
  wp (OverwriteWithZeroes ss0 l n) (fun ss => done l 0 n (fun _ => 0) ss0 ss).
Proof.
  intros Hs Hl Hn. unfold OverwriteWithZeroes. apply wp_bind.
  eapply wp_loop with (mu := fun '(_, sl, _) => Z.to_nat (sl / 8))
    (I := fun '(s, sl, lp) => 0 <= sl /\ 0 <= lp /\ sl = n - 8 * lp /\ done l 0 (8 * lp) (fun _ => 0) ss0 s).
  - split; [lia|split; [lia|split; [lia|]]]. apply done_refl, Hs.
  - pose proof (Z.div_pos n 8 ltac:(lia) ltac:(lia)). lia.
  - intros ((s, sl), lp) (Hsl & Hlp & E & HD). apply wp_branch; intros B; [apply Z.leb_le in B|apply Z.leb_gt in B].
    + apply wp_bind. eapply wp_mono; [apply sto_lane; [apply HD|auto|lia|lia]|]. intros s' (Hs' & H).
      apply wp_ret. cbn [fst snd]. split.
      * split; [lia|split; [lia|split; [lia|]]].
        apply (lane_extend l lp 0 (8 * lp) (8 * (lp + 1)) (fun _ => 0) ss0 s s' (fun k => by8 0 (k mod 8))); auto; try lia.
        intros k Hk Hkp. rewrite by8_0. destruct (Z.leb_spec (8 * lp) k); [|lia]. destruct (Z.ltb_spec k (8 * (lp + 1))); [|lia]. reflexivity.
      * replace (sl / 8) with ((sl - 8) / 8 + 1) by dlia. pose proof (Z.div_pos (sl - 8) 8 ltac:(lia) ltac:(lia)). lia.
    + apply wp_ret. cbn [fst snd].
      apply wp_branch; intros B2; [apply Z.ltb_lt in B2|apply Z.ltb_ge in B2].
      * eapply wp_mono; [apply memset_lane; [apply HD|auto|lia|lia]|]. intros s' (Hs' & H).
        apply done_extend with (mid := 8 * lp) (ss := s); auto; try lia.
        intros l' k Hl' Hk. rewrite H by auto. replace n with (8 * lp + sl) by lia. reflexivity.
      * apply wp_ret. replace n with (8 * lp) by lia. exact HD.
Qed.

(** A buffer whose first c bytes have been replaced. *)
Definition given (c : Z) (f : Z -> Z) (out0 out : list Z) : Prop :=
  zlen out = zlen out0 /\ forall j, 0 <= j -> znth out j = if j <? c then f j else znth out0 j.

Lemma given_0 f out : given 0 f out out.
Proof. split; [auto|]. intros j Hj. destruct (Z.ltb_spec j 0); [lia|auto]. Qed.
Lemma given_extend c n f out0 out out' : 0 <= c -> 0 <= n -> given c f out0 out -> zlen out' = zlen out ->
  (forall j, 0 <= j -> znth out' j = if (c <=? j) && (j <? c + n) then f j else znth out j) -> given (c + n) f out0 out'.
Proof.
  intros Hc Hn (Hl & H) Hl' H'. split; [lia|]. intros j Hj. rewrite H', H by auto.
  destruct (Z.leb_spec c j); destruct (Z.ltb_spec j (c + n)); destruct (Z.ltb_spec j c); cbn [andb]; reflexivity || lia.
Qed.
Lemma given_list c f out0 out : 0 <= c <= zlen out0 -> given c f out0 out -> out = ztab c f ++ skipn (Z.to_nat c) out0.
Proof.
  intros Hc (Hl & H).
  assert (SK : zlen (skipn (Z.to_nat c) out0) = zlen out0 - c) by (unfold zlen in *; rewrite skipn_length; lia).
  apply list_ext; [rewrite zlen_app, zlen_ztab, SK; lia|]. intros i Hi. rewrite H by lia.
  destruct (Z.ltb_spec i c).
  - rewrite znth_app1 by (rewrite zlen_ztab; lia). now rewrite znth_ztab by lia.
  - rewrite znth_app2 by (rewrite zlen_ztab; lia). rewrite zlen_ztab by lia.
    unfold znth. destruct (Z.ltb_spec i 0); [lia|]. destruct (Z.ltb_spec (i - c) 0); [lia|].
    rewrite nth_skipn_d. f_equal. lia.
Qed.

Section ExtrB.
Variables (ss : list Z) (l : Z) (data0 : list Z) (offset length : Z).
Hypothesis Hok : st_ok ss.
Hypothesis Hl : 0 <= l < 4.
Hypothesis Ho : 0 <= offset.
Hypothesis Hlen : 0 <= length <= zlen data0.
Hypothesis Hroom : offset + length <= 200.

Let fe (j : Z) : Z := znth ss (pos l (offset + j)).
Let D (c : Z) (d : list Z) : Prop := given c fe data0 d.

Lemma get_part d c n p t0 : D c d -> 0 <= c -> 0 <= n -> c + n <= length -> offset + c = 8 * p + t0 -> 0 <= t0 ->
  t0 + n <= 8 -> 0 <= p < 25 -> wp (memcpy d c ss (laneAddr l p + t0) n) (D (c + n)).
Proof.
  intros HD Hc Hn Hcn Hp Ht0 Htn Hpr. destruct HD as (Hd & HD).
  pose proof (proj1 Hok) as Hs.
  eapply wp_mono; [apply memcpy_znth; unfold laneAddr; lia|]. intros d' (Hd' & H).
  apply given_extend with (out := d); auto; [now split|].
  intros j Hj. rewrite H by auto. destruct (Z.leb_spec c j); destruct (Z.ltb_spec j (c + n)); cbn [andb]; try reflexivity.
  unfold fe. f_equal. unfold laneAddr, pos. dlia.
Qed.

Lemma ExtractBytes_wp : wp (ExtractBytes ss l data0 offset length) (given length fe data0).
Proof.
  unfold ExtractBytes; cbv zeta. apply wp_bind.
  eapply wp_mono with (P := fun r => exists s lp c, r = (s, length - c, lp, c) /\ D c s /\ 0 <= c <= length /\
    (c < length -> (offset + c) mod 8 = 0 /\ lp = (offset + c) / 8)).
  { apply wp_branch; intros B.
    - apply andb_prop in B. destruct B as (B1 & B2). apply Z.ltb_lt in B1. apply negb_true_iff in B2. apply Z.eqb_neq in B2.
      assert (Hm : 0 < offset mod 8 < 8) by dlia.
      apply wp_bind. eapply wp_mono; [apply first_bytes_wp|]. intros n En. cbv beta in *.
      assert (Hn : 0 < n) by lia. assert (Hp : 0 <= offset / 8 < 25) by dlia.
      apply wp_bind. eapply wp_mono; [apply (get_part data0 0 n (offset / 8) (offset mod 8)); try lia|].
      + apply given_0.
      + dlia.
      + intros s Hs. apply wp_ret. exists s, (offset / 8 + 1), n. split; [reflexivity|]. split; [exact Hs|]. split; [lia|].
        intros L. assert (n = 8 - offset mod 8) by lia. split; dlia.
    - apply wp_ret. exists data0, (offset / 8), 0. split; [do 3 f_equal; lia|]. split; [apply given_0|].
      split; [lia|]. intros L. apply andb_false_iff in B. destruct B as [B|B]; [apply Z.ltb_ge in B; lia|].
      apply negb_false_iff, Z.eqb_eq in B. rewrite Z.add_0_r. split; [exact B|reflexivity]. }
  intros r (s & lp & c & -> & HD & Hc & Hlp). cbv beta iota. apply wp_bind.
  eapply wp_mono.
  { apply (lanes_loop D offset length); auto.
    - intros s1 c1 Hm Hc1 Hcl HD1. cbv beta iota. apply wp_branch; intros B; [|apply Z.leb_gt in B; lia].
      assert (Hp : 0 <= (offset + c1) / 8 < 25) by dlia.
      apply wp_bind. eapply wp_mono; [apply ld_lane; auto|]. intros x (Hx & Hxb).
      pose proof (proj1 HD1) as Hs1. apply wp_bind.
      eapply wp_mono; [apply store64_by; lia|]. intros s' (Hs' & H).
      apply wp_ret. exists s'; split; [auto|].
      apply given_extend with (out := s1); auto; [lia|].
      intros j Hj. rewrite H. destruct (Z.leb_spec c1 j); destruct (Z.ltb_spec j (c1 + 8)); cbn [andb]; try reflexivity.
      rewrite Hxb by lia. unfold fe. do 2 f_equal. dlia.
    - intros s1 sl lp1 c1 L. cbv beta iota. apply wp_branch; intros B; [apply Z.leb_le in B; lia|]. now apply wp_ret. }
  intros r (s' & lp' & c' & -> & HD' & Hc' & Hr & Hlp'). cbv beta iota.
  apply wp_branch; intros B; [apply Z.ltb_lt in B|apply Z.ltb_ge in B].
  - destruct (Hlp' ltac:(lia)) as (Hm & ->). assert (Hp : 0 <= (offset + c') / 8 < 25) by dlia.
    rewrite <- (Z.add_0_r (laneAddr l ((offset + c') / 8))).
    eapply wp_mono; [apply (get_part s' c' (length - c') ((offset + c') / 8) 0); auto; try lia; dlia|].
    intros o HDs. unfold D in HDs. replace (c' + (length - c')) with length in HDs by lia. exact HDs.
  - apply wp_ret. unfold D in HD'. replace c' with length in HD' by lia. exact HD'.
Qed.
End ExtrB.

Lemma by8_shift x i t : 0 <= i -> 0 <= t -> by8 (Z.shiftr x (8 * i)) t = by8 x (i + t).
Proof.
  intros Hi Ht. apply byte_ext; try apply by8_range. intros z Hz.
  rewrite !by8_testbit, Z.shiftr_spec by lia. f_equal; lia.
Qed.
Lemma u8_by8 x : u8 x = by8 x 0.
Proof. unfold u8, by8. change (2 ^ (8 * 0)) with 1. now rewrite Z.div_1_r. Qed.
Lemma u8_id x : 0 <= x < 256 -> u8 x = x.
Proof. intros; apply Z.mod_small; lia. Qed.

Lemma xor_out_wp input output cur lane n : bytes_ok input -> 0 <= cur -> 0 <= n -> cur + n <= zlen input ->
  cur + n <= zlen output -> 0 <= lane ->
  wp (xor_out input output cur lane n) (fun out => zlen out = zlen output /\ forall j, 0 <= j ->
     znth out j = if (cur <=? j) && (j <? cur + n) then Z.lxor (znth input j) (by8 lane (j - cur)) else znth output j).
Proof.
  intros Hi Hc Hn H1 H2 HL. unfold xor_out. apply wp_bind.
  eapply wp_for with (I := fun i '(out, x) => zlen out = zlen output /\ x = Z.shiftr lane (8 * i) /\ forall j, 0 <= j ->
     znth out j = if (cur <=? j) && (j <? cur + i) then Z.lxor (znth input j) (by8 lane (j - cur)) else znth output j).
  - lia.
  - split; [auto|]. split; [now rewrite Z.shiftr_0_r|]. intros j Hj.
    destruct (Z.leb_spec cur j); destruct (Z.ltb_spec j (cur + 0)); cbn [andb]; try reflexivity; lia.
  - intros i (out, x) Hi2 (Hl & -> & H).
    assert (B : 0 <= znth input (cur + i) < 256) by (apply inrange_znth_all; auto; lia).
    apply wp_bind, wp_rd; [lia|lia|]. apply wp_bind, wp_wr; [lia|].
    apply wp_bind, wp_shr64; [lia|]. apply wp_ret.
    split; [rewrite zlen_zset; auto|]. split; [rewrite Z.shiftr_shiftr by lia; f_equal; lia|].
    intros j Hj. rewrite znth_zset by lia.
    rewrite (u8_by8 (Z.shiftr lane (8 * i))), by8_shift by lia. rewrite u8_id by (apply lxor_byte; [auto|apply by8_range]).
    destruct (Z.eqb_spec (cur + i) j) as [<-|N].
    + destruct (Z.leb_spec cur (cur + i)); [|lia]. destruct (Z.ltb_spec (cur + i) (cur + (i + 1))); [|lia]. cbn [andb].
      replace (cur + i - cur) with (i + 0) by lia; reflexivity.
    + rewrite H by auto. destruct (Z.leb_spec cur j); destruct (Z.ltb_spec j (cur + i)); destruct (Z.ltb_spec j (cur + (i + 1)));
        cbn [andb]; try reflexivity; lia.
  - intros (out, x) (Hl & _ & H). apply wp_ret. auto.
Qed.

Section ExtrAddB.
Variables (ss : list Z) (l : Z) (input out0 : list Z) (offset length : Z).
Hypothesis Hok : st_ok ss.
Hypothesis Hl : 0 <= l < 4.
Hypothesis Hin : bytes_ok input.
Hypothesis Ho : 0 <= offset.
Hypothesis Hlen : 0 <= length <= zlen out0.
Hypothesis Hlen2 : length <= zlen input.
Hypothesis Hroom : offset + length <= 200.

Let fa (j : Z) : Z := Z.lxor (znth input j) (znth ss (pos l (offset + j))).
Let D (c : Z) (d : list Z) : Prop := given c fa out0 d.

Lemma ExtractAndAddBytes_wp : wp (ExtractAndAddBytes ss l input out0 offset length) (given length fa out0).
Proof.
  unfold ExtractAndAddBytes; cbv zeta. apply wp_bind.
  eapply wp_mono with (P := fun r => exists s lp c, r = (s, length - c, lp, c) /\ D c s /\ 0 <= c <= length /\
    (c < length -> (offset + c) mod 8 = 0 /\ lp = (offset + c) / 8)).
  { apply wp_branch; intros B.
    - apply andb_prop in B. destruct B as (B1 & B2). apply Z.ltb_lt in B1. apply negb_true_iff in B2. apply Z.eqb_neq in B2.
      assert (Hm : 0 < offset mod 8 < 8) by dlia. assert (Hp : 0 <= offset / 8 < 25) by dlia.
      apply wp_bind. eapply wp_mono; [apply ld_lane; auto|]. intros x (Hx & Hxb).
      apply wp_bind, wp_shr64; [lia|].
      apply wp_bind. eapply wp_mono; [apply first_bytes_wp|]. intros n En. cbv beta in *.
      assert (Hn : 0 < n) by lia.
      apply wp_bind. eapply wp_mono; [apply xor_out_wp; auto; try lia; apply Z.shiftr_nonneg; lia|].
      intros s (Hs & H). apply wp_ret. exists s, (offset / 8 + 1), n. split; [reflexivity|].
      split; [|split; [lia|intros L; assert (n = 8 - offset mod 8) by lia; split; dlia]].
      replace n with (0 + n) by lia. apply given_extend with (out := out0); auto; [lia|lia|apply given_0|].
      intros j Hj. rewrite H by auto. destruct (Z.leb_spec 0 j); destruct (Z.ltb_spec j (0 + n)); cbn [andb]; try reflexivity.
      rewrite by8_shift, Hxb by lia. unfold fa. do 3 f_equal. dlia.
    - apply wp_ret. exists out0, (offset / 8), 0. split; [do 3 f_equal; lia|]. split; [apply given_0|].
      split; [lia|]. intros L. apply andb_false_iff in B. destruct B as [B|B]; [apply Z.ltb_ge in B; lia|].
      apply negb_false_iff, Z.eqb_eq in B. rewrite Z.add_0_r. split; [exact B|reflexivity]. }
  intros r (s & lp & c & -> & HD & Hc & Hlp). cbv beta iota. apply wp_bind.
  eapply wp_mono.
  { apply (lanes_loop D offset length); auto.
    - intros s1 c1 Hm Hc1 Hcl HD1. cbv beta iota. apply wp_branch; intros B; [|apply Z.leb_gt in B; lia].
      assert (Hp : 0 <= (offset + c1) / 8 < 25) by dlia.
      apply wp_bind. eapply wp_mono; [apply load64_by; [lia|lia|]|].
      { intros j Hj. apply inrange_znth_all; auto; lia. }
      intros y (Hy & Hyb).
      apply wp_bind. eapply wp_mono; [apply ld_lane; auto|]. intros x (Hx & Hxb).
      pose proof (proj1 HD1) as Hs1. apply wp_bind.
      eapply wp_mono; [apply store64_by; try lia; apply Z.lxor_nonneg; lia|]. intros s' (Hs' & H).
      apply wp_ret. exists s'; split; [auto|].
      apply given_extend with (out := s1); auto; [lia|].
      intros j Hj. rewrite H. destruct (Z.leb_spec c1 j); destruct (Z.ltb_spec j (c1 + 8)); cbn [andb]; try reflexivity.
      rewrite by8_xor, Hxb, Hyb by lia. unfold fa. f_equal; [f_equal; lia|]. do 2 f_equal. dlia.
    - intros s1 sl lp1 c1 L. cbv beta iota. apply wp_branch; intros B; [apply Z.leb_le in B; lia|]. now apply wp_ret. }
  intros r (s' & lp' & c' & -> & HD' & Hc' & Hr & Hlp'). cbv beta iota.
  apply wp_branch; intros B.
  - apply negb_true_iff, Z.eqb_neq in B.
    destruct (Hlp' ltac:(lia)) as (Hm & ->). assert (Hp : 0 <= (offset + c') / 8 < 25) by dlia.
    pose proof (proj1 HD') as Hs1.
    apply wp_bind. eapply wp_mono; [apply ld_lane; auto|]. intros x (Hx & Hxb).
    eapply wp_mono; [apply xor_out_wp; auto; lia|]. intros o (Hol & H).
    replace length with (c' + (length - c')) by lia. apply given_extend with (out := s'); auto; try lia.
    intros j Hj. rewrite H by auto. destruct (Z.leb_spec c' j); destruct (Z.ltb_spec j (c' + (length - c'))); cbn [andb]; try reflexivity.
    rewrite Hxb by lia. unfold fa. do 3 f_equal. dlia.
  - apply negb_false_iff, Z.eqb_eq in B. apply wp_ret. unfold D in HD'. replace c' with length in HD' by lia. exact HD'.
Qed.
End ExtrAddB.

Lemma AddByte_wp ss l b off : st_ok ss -> 0 <= l < 4 -> 0 <= b < 256 -> 0 <= off < 200 ->
  wp (AddByte ss l b off) (fun ss' => done l off (off + 1) (fun k => Z.lxor (znth ss (pos l k)) b) ss ss').
Proof.
  intros Hok Hl Hb Ho. unfold AddByte; cbv zeta. pose proof (proj1 Hok) as Hs.
  assert (E : l * 8 + off / 8 * 4 * 8 + off mod 8 = pos l off) by (unfold pos; lia). rewrite E.
  pose proof (pos_range l off Hl Ho). pose proof (st_byte ss (pos l off) Hok).
  apply wp_bind, wp_rd; [lia|lia|]. apply wp_wr; [lia|].
  rewrite u8_id by (now apply lxor_byte).
  split; [rewrite zlen_zset; auto|]. intros l' k Hl' Hk. pose proof (pos_range l' k Hl' Hk). rewrite znth_zset by lia.
  destruct (Z.eqb_spec l' l) as [->|N]; cbn [andb].
  - destruct (Z.eqb_spec (pos l off) (pos l k)) as [E2|N2].
    + assert (k = off) by (unfold pos in E2; dlia). subst.
      destruct (Z.leb_spec off off); [|lia]. destruct (Z.ltb_spec off (off + 1)); [|lia]. reflexivity.
    + destruct (Z.leb_spec off k); destruct (Z.ltb_spec k (off + 1)); cbn [andb]; try reflexivity.
      exfalso; apply N2; f_equal; lia.
  - destruct (Z.eqb_spec (pos l off) (pos l' k)) as [E2|N2]; [|reflexivity]. exfalso; apply N; unfold pos in E2; dlia.
Qed.

Lemma InitializeAll_wp ss : zlen ss = 800 -> wp (InitializeAll ss) (fun ss' => ss' = zrep 800 0).
Proof.
  intros Hs. unfold InitializeAll. apply wp_memset; try lia.
  apply list_ext; [rewrite zlen_zsplice; rewrite ?zlen_zrep; lia|].
  intros i Hi. rewrite zlen_zsplice in Hi by (rewrite ?zlen_zrep; lia).
  rewrite znth_zsplice by (rewrite ?zlen_zrep; lia). rewrite zlen_zrep by lia.
  destruct (Z.leb_spec 0 i); [|lia]. destruct (Z.ltb_spec i (0 + 800)); [|lia]. cbn [andb].
  now rewrite !znth_zrep0.
Qed.

(* ================================================================== *)
(** * Whole registers *)

Lemma M64_pos : 0 < M64. Proof. reflexivity. Qed.

Lemma loadu256_wp m o : 0 <= o -> o + 32 <= zlen m -> bytes_ok m ->
  wp (loadu256 m o) (fun v => forall j, 0 <= j < 4 -> 0 <= lane v j < M64 /\
     forall t, 0 <= t < 8 -> by8 (lane v j) t = znth m (o + 8 * j + t)).
Proof.
  intros Ho Hl Hok. unfold loadu256.
  apply wp_bind. eapply wp_mono; [apply load64_by; [lia|lia|now apply bytes_ok_byte_in]|]. intros a (Ha & Hab).
  apply wp_bind. eapply wp_mono; [apply load64_by; [lia|lia|now apply bytes_ok_byte_in]|]. intros b (Hb & Hbb).
  apply wp_bind. eapply wp_mono; [apply load64_by; [lia|lia|now apply bytes_ok_byte_in]|]. intros c (Hc & Hcb).
  apply wp_bind. eapply wp_mono; [apply load64_by; [lia|lia|now apply bytes_ok_byte_in]|]. intros d (Hd & Hdb).
  apply wp_ret. intros j Hj. by4 Hj; cbn [lane Z.eqb Pos.eqb]; (split; [assumption|]); intros t Ht.
  - rewrite Hab by auto; f_equal; lia.
  - rewrite Hbb by auto; f_equal; lia.
  - rewrite Hcb by auto; f_equal; lia.
  - rewrite Hdb by auto; f_equal; lia.
Qed.

Lemma storeu256_wp m o v : 0 <= o -> o + 32 <= zlen m -> (forall j, 0 <= j < 4 -> 0 <= lane v j) ->
  wp (storeu256 m o v) (fun m' => zlen m' = zlen m /\
     forall j, znth m' j = if (o <=? j) && (j <? o + 32) then by8 (lane v ((j - o) / 8)) ((j - o) mod 8) else znth m j).
Proof.
  intros Ho Hl Hv. unfold storeu256.
  pose proof (Hv 0 ltac:(lia)); pose proof (Hv 1 ltac:(lia)); pose proof (Hv 2 ltac:(lia)); pose proof (Hv 3 ltac:(lia)).
  apply wp_bind. eapply wp_mono; [apply store64_by; lia|]. intros m1 (L1 & E1).
  apply wp_bind. eapply wp_mono; [apply store64_by; lia|]. intros m2 (L2 & E2).
  apply wp_bind. eapply wp_mono; [apply store64_by; lia|]. intros m3 (L3 & E3).
  eapply wp_mono; [apply store64_by; lia|]. intros m4 (L4 & E4).
  split; [lia|]. intros j. rewrite E4, E3, E2, E1.
  destruct (Z.leb_spec (o + 24) j); destruct (Z.ltb_spec j (o + 24 + 8));
  destruct (Z.leb_spec (o + 16) j); destruct (Z.ltb_spec j (o + 16 + 8));
  destruct (Z.leb_spec (o + 8) j); destruct (Z.ltb_spec j (o + 8 + 8));
  destruct (Z.leb_spec o j); destruct (Z.ltb_spec j (o + 8)); destruct (Z.ltb_spec j (o + 32)); cbn [andb]; try reflexivity; try lia.
  - replace ((j - o) / 8) with 3 by dlia. f_equal; dlia.
  - replace ((j - o) / 8) with 2 by dlia. f_equal; dlia.
  - replace ((j - o) / 8) with 1 by dlia. f_equal; dlia.
  - replace ((j - o) / 8) with 0 by dlia. f_equal; dlia.
Qed.

Lemma load256b_wp ss i : st_ok ss -> 0 <= i < 25 ->
  wp (load256b ss i) (fun v => forall l, 0 <= l < 4 -> 0 <= lane v l < M64 /\
     forall t, 0 <= t < 8 -> by8 (lane v l) t = znth ss (pos l (8 * i + t))).
Proof.
  intros (Hs & Hok) Hi. unfold load256b. eapply wp_mono; [apply loadu256_wp; auto; lia|].
  intros v H l Hl. destruct (H l Hl) as (H1 & H2). split; [auto|]. intros t Ht. rewrite H2 by auto. f_equal. unfold pos; dlia.
Qed.
Lemma store256b_wp ss i v : zlen ss = 800 -> 0 <= i < 25 -> (forall j, 0 <= j < 4 -> 0 <= lane v j) ->
  wp (store256b ss i v) (fun ss' => zlen ss' = 800 /\ forall l k, 0 <= l < 4 -> 0 <= k < 200 ->
     znth ss' (pos l k) = if k / 8 =? i then by8 (lane v l) (k mod 8) else znth ss (pos l k)).
Proof.
  intros Hs Hi Hv. unfold store256b. eapply wp_mono; [apply storeu256_wp; auto; lia|].
  intros ss' (Hs' & H). split; [lia|]. intros l k Hl Hk. rewrite H.
  destruct (Z.eqb_spec (k / 8) i) as [E|N].
  - destruct (Z.leb_spec (32 * i) (pos l k)); [|exfalso; unfold pos in *; dlia].
    destruct (Z.ltb_spec (pos l k) (32 * i + 32)); [|exfalso; unfold pos in *; dlia]. cbn [andb].
    f_equal; [f_equal|]; unfold pos; dlia.
  - destruct (Z.leb_spec (32 * i) (pos l k)); destruct (Z.ltb_spec (pos l k) (32 * i + 32)); cbn [andb]; try reflexivity.
    exfalso; unfold pos in *; dlia.
Qed.

Lemma INTLEAVE_lane a0 a1 a2 a3 j l : 0 <= j < 4 -> 0 <= l < 4 ->
  lane (sel4 (INTLEAVE a0 a1 a2 a3) j) l = lane (sel4 (a0, a1, a2, a3) l) j.
Proof. intros Hj Hl; by4 Hj; by4 Hl; reflexivity. Qed.
Lemma UNINTLEAVE_lane a0 a1 a2 a3 j l : 0 <= j < 4 -> 0 <= l < 4 ->
  lane (sel4 (UNINTLEAVE a0 a1 a2 a3) j) l = lane (sel4 (a0, a1, a2, a3) l) j.
Proof. intros Hj Hl; by4 Hj; by4 Hl; reflexivity. Qed.

Lemma dataOffset_id l ofs : 0 <= l < 4 -> 0 <= ofs -> 8 * (3 * ofs) < 4294967296 -> dataOffset l ofs = 8 * (l * ofs).
Proof.
  intros Hl Ho Hb. unfold dataOffset, u32. change (2 ^ 32) with 4294967296.
  assert (0 <= ofs * l <= 3 * ofs) by (by4 Hl; lia).
  rewrite (Z.mod_small (ofs * l)) by lia. rewrite Z.mod_small by lia. lia.
Qed.

Lemma gather_wp data o ofs i : bytes_ok data -> 0 <= o -> 0 <= ofs -> 8 * (3 * ofs) < 4294967296 -> 0 <= i ->
  o + 8 * (3 * ofs) + 8 * i + 8 <= zlen data ->
  wp (gather data o ofs i) (fun v => forall l, 0 <= l < 4 -> 0 <= lane v l < M64 /\
     forall t, 0 <= t < 8 -> by8 (lane v l) t = znth data (o + 8 * (l * ofs) + 8 * i + t)).
Proof.
  intros Hd Ho Hofs Hb Hi Hl. unfold gather.
  rewrite !dataOffset_id by lia.
  apply wp_bind. eapply wp_mono; [apply load64_by; [lia|lia|now apply bytes_ok_byte_in]|]. intros d3 (R3 & B3).
  apply wp_bind. eapply wp_mono; [apply load64_by; [lia|lia|now apply bytes_ok_byte_in]|]. intros d2 (R2 & B2).
  apply wp_bind. eapply wp_mono; [apply load64_by; [lia|lia|now apply bytes_ok_byte_in]|]. intros d1 (R1 & B1).
  apply wp_bind. eapply wp_mono; [apply load64_by; [lia|lia|now apply bytes_ok_byte_in]|]. intros d0 (R0 & B0).
  apply wp_ret. intros l Hll. by4 Hll; cbn [lane Z.eqb Pos.eqb]; (split; [assumption|]); intros t Ht.
  - rewrite B0 by auto; f_equal; lia.
  - rewrite B1 by auto; f_equal; lia.
  - rewrite B2 by auto; f_equal; lia.
  - rewrite B3 by auto; f_equal; lia.
Qed.

(* ================================================================== *)
(** * Functions on the lanes of all instances *)

Lemma lanes_all_wp (I : Z -> list Z -> Prop) one four cnt s : 0 <= cnt -> I 0 s ->
  (forall i s, 0 <= i < cnt -> I i s -> wp (one i s) (I (i + 1))) ->
  (forall i s, 0 <= i -> i + 4 <= cnt -> I i s -> wp (four i s) (I (i + 4))) ->
  wp (lanes_all one four cnt s) (I cnt).
Proof.
  intros Hc H0 H1 H4. unfold lanes_all.
  apply wp_branch; intros B; [apply Z.leb_le in B|apply Z.leb_gt in B].
  - apply wp_bind. eapply wp_mono; [apply (H4 0); auto; lia|]. intros s1 I1.
    apply wp_bind. eapply wp_mono; [apply (H4 4); auto; lia|]. intros s2 I2.
    apply wp_bind. eapply wp_mono; [apply (H4 8); auto; lia|]. intros s3 I3.
    apply wp_bind. eapply wp_mono; [apply (H4 12); auto; lia|]. intros s4 I4.
    apply wp_branch; intros B2; [apply Z.leb_le in B2|apply Z.leb_gt in B2].
    + apply wp_bind. eapply wp_mono; [apply (H4 16); auto; lia|]. intros s5 I5.
      apply (wp_for I); [lia|auto| |auto]. intros i s' Hi. apply H1; lia.
    + apply (wp_for I); [lia|auto| |auto]. intros i s' Hi. apply H1; lia.
  - apply (wp_for I); [lia|auto|auto|auto].
Qed.

Definition doneall (n : Z) (f : Z -> Z -> Z) (ss0 ss : list Z) : Prop :=
  zlen ss = 800 /\ forall l k, 0 <= l < 4 -> 0 <= k < 200 ->
    znth ss (pos l k) = if k <? n then f l k else znth ss0 (pos l k).

Lemma doneall_ok n f ss0 ss : st_ok ss0 -> (forall l k, 0 <= f l k < 256) -> doneall n f ss0 ss -> st_ok ss.
Proof.
  intros H0 Hf (Hs & H); split; [auto|]. apply inrange_intro; intros j Hj. rewrite Hs in Hj.
  destruct (pos_surj j Hj) as (l' & k & Hl & Hk & ->). rewrite H by auto. destruct (_ <? _); [apply Hf|now apply st_byte].
Qed.
Lemma doneall_0 f ss : zlen ss = 800 -> doneall 0 f ss ss.
Proof. intros H; split; [auto|]. intros l k _ Hk. destruct (Z.ltb_spec k 0); [lia|reflexivity]. Qed.
Lemma doneall_step i f ss0 ss ss' g : 0 <= i -> doneall (8 * i) f ss0 ss -> zlen ss' = 800 ->
  (forall l k, 0 <= l < 4 -> 0 <= k < 200 -> znth ss' (pos l k) = if k / 8 =? i then g l k else znth ss (pos l k)) ->
  (forall l k, 0 <= l < 4 -> 0 <= k < 200 -> 8 * i <= k < 8 * i + 8 -> g l k = f l k) ->
  doneall (8 * (i + 1)) f ss0 ss'.
Proof.
  intros Hi (_ & H) Hs H' G; split; [auto|]. intros l k Hl Hk. rewrite H', H by auto.
  destruct (Z.eqb_spec (k / 8) i).
  - rewrite G by (auto; dlia). destruct (Z.ltb_spec k (8 * (i + 1))); [reflexivity|exfalso; dlia].
  - destruct (Z.ltb_spec k (8 * (i + 1))); destruct (Z.ltb_spec k (8 * i)); try reflexivity; exfalso; dlia.
Qed.
Lemma doneall_old i f ss0 ss l k : doneall i f ss0 ss -> 0 <= l < 4 -> 0 <= k < 200 -> i <= k -> znth ss (pos l k) = znth ss0 (pos l k).
Proof. intros (_ & H) Hl Hk Hi. rewrite H by auto. destruct (Z.ltb_spec k i); [lia|reflexivity]. Qed.

Section AddAll.
Variables (ss0 data : list Z) (o cnt ofs : Z).
Hypothesis Hok : st_ok ss0.
Hypothesis Hd : bytes_ok data.
Hypothesis Ho : 0 <= o.
Hypothesis Hc : 0 <= cnt <= 25.
Hypothesis Hofs : 0 <= ofs.
Hypothesis Hb : 8 * (3 * ofs) < 4294967296.
Hypothesis Hlen : o + 8 * (3 * ofs + cnt) <= zlen data.

Let fx (l k : Z) : Z := Z.lxor (znth ss0 (pos l k)) (znth data (o + 8 * (l * ofs) + k)).
Let I (i : Z) (s : list Z) : Prop := doneall (8 * i) fx ss0 s.
Lemma fxa_range l k : 0 <= fx l k < 256.
Proof. apply lxor_byte; [now apply st_byte|apply inrange_znth_all; auto; lia]. Qed.
Lemma I_ok i s : I i s -> st_ok s.
Proof. intros H; eapply doneall_ok; [exact Hok| |exact H]. intros; apply fxa_range. Qed.

Lemma xor_one i v s : I i s -> 0 <= i < 25 ->
  (forall l, 0 <= l < 4 -> 0 <= lane v l < M64 /\ forall t, 0 <= t < 8 -> by8 (lane v l) t = znth data (o + 8 * (l * ofs) + 8 * i + t)) ->
  wp (x <- load256b s i ;; store256b s i (XOR256 x v)) (I (i + 1)).
Proof.
  intros HI Hi Hv. apply wp_bind. eapply wp_mono; [apply load256b_wp; [now apply (I_ok i)|lia]|]. intros x Hx.
  eapply wp_mono; [apply store256b_wp; [apply HI|lia|]|].
  { intros j Hj. rewrite lane_XOR by auto. destruct (Hx j Hj) as (? & _); destruct (Hv j Hj) as (? & _). apply Z.lxor_nonneg; lia. }
  intros s' (Hs' & H). eapply doneall_step; [lia|exact HI|exact Hs'|exact H|].
  intros l k Hl Hk Hki. cbv beta. rewrite lane_XOR, by8_xor by (auto; dlia).
  destruct (Hx l Hl) as (_ & Hx2); destruct (Hv l Hl) as (_ & Hv2). rewrite Hx2, Hv2 by dlia.
  replace (8 * i + k mod 8) with k by dlia. replace (o + 8 * (l * ofs) + 8 * i + k mod 8) with (o + 8 * (l * ofs) + k) by dlia.
  unfold fx. f_equal. apply (doneall_old (8 * i) fx); auto; lia.
Qed.

Lemma AddLanesAll_wp : wp (AddLanesAll ss0 data o cnt ofs) (doneall (8 * cnt) fx ss0).
Proof.
  unfold AddLanesAll; cbv zeta. rewrite !dataOffset_id by lia.
  apply (lanes_all_wp I); [lia|apply doneall_0, Hok| |].
  - intros i s Hi HI. apply wp_bind. eapply wp_mono; [apply gather_wp; auto; lia|]. intros v Hv. apply xor_one; auto; lia.
  - intros i s Hi Hi4 HI.
    apply wp_bind. eapply wp_mono; [apply loadu256_wp; auto; lia|]. intros l0 H0.
    apply wp_bind. eapply wp_mono; [apply loadu256_wp; auto; lia|]. intros l1 H1.
    apply wp_bind. eapply wp_mono; [apply loadu256_wp; auto; lia|]. intros l2 H2.
    apply wp_bind. eapply wp_mono; [apply loadu256_wp; auto; lia|]. intros l3 H3.
    assert (HH : forall j l, 0 <= j < 4 -> 0 <= l < 4 -> 0 <= lane (sel4 (INTLEAVE l0 l1 l2 l3) j) l < M64 /\
       forall t, 0 <= t < 8 -> by8 (lane (sel4 (INTLEAVE l0 l1 l2 l3) j) l) t = znth data (o + 8 * (l * ofs) + 8 * (i + j) + t)).
    { intros j l Hj Hl. rewrite INTLEAVE_lane by auto.
      assert (HX : 0 <= lane (sel4 (l0, l1, l2, l3) l) j < M64 /\ forall t, 0 <= t < 8 ->
         by8 (lane (sel4 (l0, l1, l2, l3) l) j) t = znth data (o + 8 * (l * ofs) + 8 * i + 8 * j + t)).
      { by4 Hl; cbn [sel4 Z.eqb Pos.eqb]; [destruct (H0 j Hj) as (A & B)|destruct (H1 j Hj) as (A & B)|destruct (H2 j Hj) as (A & B)|destruct (H3 j Hj) as (A & B)];
          (split; [exact A|]); intros t Ht; rewrite B by auto; f_equal; lia. }
      destruct HX as (A & B). split; [exact A|]. intros t Ht. rewrite B by auto. f_equal; lia. }
    destruct (INTLEAVE l0 l1 l2 l3) as (((m0, m1), m2), m3).
    pose proof (fun l => HH 0 l ltac:(lia)) as G0. pose proof (fun l => HH 1 l ltac:(lia)) as G1.
    pose proof (fun l => HH 2 l ltac:(lia)) as G2. pose proof (fun l => HH 3 l ltac:(lia)) as G3.
    cbn [sel4 Z.eqb Pos.eqb] in G0, G1, G2, G3.
    apply wp_bind. eapply wp_mono; [apply xor_one; [rewrite Z.add_0_r; exact HI|lia|exact G0]|]. intros s1 I1.
    apply wp_bind. eapply wp_mono; [apply xor_one; [rewrite Z.add_0_r in I1; exact I1|lia|exact G1]|]. intros s2 I2.
    apply wp_bind. eapply wp_mono; [apply xor_one; [replace (i + 2) with (i + 1 + 1) by lia; exact I2|lia|exact G2]|]. intros s3 I3.
    eapply wp_mono; [apply xor_one; [replace (i + 3) with (i + 2 + 1) by lia; exact I3|lia|exact G3]|].
    intros s4 I4. replace (i + 4) with (i + 3 + 1) by lia. exact I4.
Qed.
End AddAll.

Section PutAll.
Variables (ss0 data : list Z) (cnt ofs : Z).
Hypothesis Hok : st_ok ss0.
Hypothesis Hd : bytes_ok data.
Hypothesis Hc : 0 <= cnt <= 25.
Hypothesis Hofs : 0 <= ofs.
Hypothesis Hb : 8 * (3 * ofs) < 4294967296.
Hypothesis Hlen : 8 * (3 * ofs + cnt) <= zlen data.

Let fp (l k : Z) : Z := znth data (8 * (l * ofs) + k).
Let I (i : Z) (s : list Z) : Prop := doneall (8 * i) fp ss0 s.

Lemma put_one i v s : I i s -> 0 <= i < 25 ->
  (forall l, 0 <= l < 4 -> 0 <= lane v l < M64 /\ forall t, 0 <= t < 8 -> by8 (lane v l) t = znth data (8 * (l * ofs) + 8 * i + t)) ->
  wp (store256b s i v) (I (i + 1)).
Proof.
  intros HI Hi Hv. eapply wp_mono; [apply store256b_wp; [apply HI|lia|intros j Hj; apply Hv; auto]|].
  intros s' (Hs' & H). eapply doneall_step; [lia|exact HI|exact Hs'|exact H|].
  intros l k Hl Hk Hki. cbv beta. destruct (Hv l Hl) as (_ & Hv2). rewrite Hv2 by dlia. unfold fp. f_equal. dlia.
Qed.

Lemma OverwriteLanesAll_wp : wp (OverwriteLanesAll ss0 data cnt ofs) (doneall (8 * cnt) fp ss0).
Proof.
  unfold OverwriteLanesAll; cbv zeta. rewrite !dataOffset_id by lia.
  apply (lanes_all_wp I); [lia|apply doneall_0, Hok| |].
  - intros i s Hi HI. apply wp_bind. eapply wp_mono; [apply gather_wp; auto; lia|]. intros v Hv. apply put_one; auto; lia.
  - intros i s Hi Hi4 HI.
    apply wp_bind. eapply wp_mono; [apply loadu256_wp; auto; lia|]. intros l0 H0.
    apply wp_bind. eapply wp_mono; [apply loadu256_wp; auto; lia|]. intros l1 H1.
    apply wp_bind. eapply wp_mono; [apply loadu256_wp; auto; lia|]. intros l2 H2.
    apply wp_bind. eapply wp_mono; [apply loadu256_wp; auto; lia|]. intros l3 H3.
    assert (HH : forall j l, 0 <= j < 4 -> 0 <= l < 4 -> 0 <= lane (sel4 (INTLEAVE l0 l1 l2 l3) j) l < M64 /\
       forall t, 0 <= t < 8 -> by8 (lane (sel4 (INTLEAVE l0 l1 l2 l3) j) l) t = znth data (8 * (l * ofs) + 8 * (i + j) + t)).
    { intros j l Hj Hl. rewrite INTLEAVE_lane by auto.
      assert (HX : 0 <= lane (sel4 (l0, l1, l2, l3) l) j < M64 /\ forall t, 0 <= t < 8 ->
         by8 (lane (sel4 (l0, l1, l2, l3) l) j) t = znth data (8 * (l * ofs) + 8 * i + 8 * j + t)).
      { by4 Hl; cbn [sel4 Z.eqb Pos.eqb]; [destruct (H0 j Hj) as (A & B)|destruct (H1 j Hj) as (A & B)|destruct (H2 j Hj) as (A & B)|destruct (H3 j Hj) as (A & B)];
          (split; [exact A|]); intros t Ht; rewrite B by auto; f_equal; lia. }
      destruct HX as (A & B). split; [exact A|]. intros t Ht. rewrite B by auto. f_equal; lia. }
    destruct (INTLEAVE l0 l1 l2 l3) as (((m0, m1), m2), m3).
    pose proof (fun l => HH 0 l ltac:(lia)) as G0. pose proof (fun l => HH 1 l ltac:(lia)) as G1.
    pose proof (fun l => HH 2 l ltac:(lia)) as G2. pose proof (fun l => HH 3 l ltac:(lia)) as G3.
    cbn [sel4 Z.eqb Pos.eqb] in G0, G1, G2, G3.
    apply wp_bind. eapply wp_mono; [apply put_one; [rewrite Z.add_0_r; exact HI|lia|exact G0]|]. intros s1 I1.
    apply wp_bind. eapply wp_mono; [apply put_one; [rewrite Z.add_0_r in I1; exact I1|lia|exact G1]|]. intros s2 I2.
    apply wp_bind. eapply wp_mono; [apply put_one; [replace (i + 2) with (i + 1 + 1) by lia; exact I2|lia|exact G2]|]. intros s3 I3.
    eapply wp_mono; [apply put_one; [replace (i + 3) with (i + 2 + 1) by lia; exact I3|lia|exact G3]|].
    intros s4 I4. replace (i + 4) with (i + 3 + 1) by lia. exact I4.
Qed.
End PutAll.

(** A buffer in which the first n bytes of each of the four parts have been replaced. *)
Definition place (ofs l t : Z) : Prop := 0 <= l < 4 /\ 0 <= t /\ (l < 3 -> t < 8 * ofs).
Definition given4 (ofs n : Z) (f : Z -> Z -> Z) (out0 out : list Z) : Prop :=
  zlen out = zlen out0 /\ forall l t, place ofs l t ->
    znth out (8 * (l * ofs) + t) = if t <? n then f l t else znth out0 (8 * (l * ofs) + t).

Lemma store64_part d ofs l i x : 0 <= l < 4 -> 0 <= ofs -> 0 <= i < ofs -> 8 * (l * ofs) + 8 * i + 8 <= zlen d -> 0 <= x ->
  wp (store64 d (8 * (l * ofs) + 8 * i) x) (fun d' => zlen d' = zlen d /\ forall l' t, place ofs l' t ->
     znth d' (8 * (l' * ofs) + t) = if (l' =? l) && (t / 8 =? i) then by8 x (t mod 8) else znth d (8 * (l' * ofs) + t)).
Proof.
  intros Hl Hofs Hi Hd Hx. assert (HP : 0 <= l * ofs) by (apply Z.mul_nonneg_nonneg; lia).
  eapply wp_mono; [apply store64_by; lia|]. intros d' (Hl' & H). split; [auto|].
  intros l' t (Hl2 & Ht & Ht3). rewrite H.
  destruct (Z.eqb_spec l' l) as [->|N]; cbn [andb].
  - destruct (Z.eqb_spec (t / 8) i);
    destruct (Z.leb_spec (8 * (l * ofs) + 8 * i) (8 * (l * ofs) + t)); destruct (Z.ltb_spec (8 * (l * ofs) + t) (8 * (l * ofs) + 8 * i + 8));
      cbn [andb]; try reflexivity; try (exfalso; dlia). f_equal; dlia.
  - assert (~ (8 * (l * ofs) + 8 * i <= 8 * (l' * ofs) + t < 8 * (l * ofs) + 8 * i + 8)) by (by4 Hl; by4 Hl2; lia).
    destruct (Z.leb_spec (8 * (l * ofs) + 8 * i) (8 * (l' * ofs) + t)); destruct (Z.ltb_spec (8 * (l' * ofs) + t) (8 * (l * ofs) + 8 * i + 8));
      cbn [andb]; try reflexivity; lia.
Qed.
Lemma storeu256_part d ofs l i v : 0 <= l < 4 -> 0 <= ofs -> 0 <= i -> i + 4 <= ofs -> 8 * (l * ofs) + 8 * i + 32 <= zlen d ->
  (forall j, 0 <= j < 4 -> 0 <= lane v j) ->
  wp (storeu256 d (8 * (l * ofs) + 8 * i) v) (fun d' => zlen d' = zlen d /\ forall l' t, place ofs l' t ->
     znth d' (8 * (l' * ofs) + t) = if (l' =? l) && ((i <=? t / 8) && (t / 8 <? i + 4)) then by8 (lane v (t / 8 - i)) (t mod 8)
                                    else znth d (8 * (l' * ofs) + t)).
Proof.
  intros Hl Hofs Hi Hi4 Hd Hv. assert (HP : 0 <= l * ofs) by (apply Z.mul_nonneg_nonneg; lia).
  eapply wp_mono; [apply storeu256_wp; auto; lia|]. intros d' (Hl' & H). split; [auto|].
  intros l' t (Hl2 & Ht & Ht3). rewrite H.
  destruct (Z.eqb_spec l' l) as [->|N]; cbn [andb].
  - destruct (Z.leb_spec i (t / 8)); destruct (Z.ltb_spec (t / 8) (i + 4));
    destruct (Z.leb_spec (8 * (l * ofs) + 8 * i) (8 * (l * ofs) + t)); destruct (Z.ltb_spec (8 * (l * ofs) + t) (8 * (l * ofs) + 8 * i + 32));
      cbn [andb]; try reflexivity; try (exfalso; dlia).
    replace (8 * (l * ofs) + t - (8 * (l * ofs) + 8 * i)) with (t - 8 * i) by lia. f_equal; [f_equal|]; dlia.
  - assert (~ (8 * (l * ofs) + 8 * i <= 8 * (l' * ofs) + t < 8 * (l * ofs) + 8 * i + 32)) by (by4 Hl; by4 Hl2; lia).
    destruct (Z.leb_spec (8 * (l * ofs) + 8 * i) (8 * (l' * ofs) + t)); destruct (Z.ltb_spec (8 * (l' * ofs) + t) (8 * (l * ofs) + 8 * i + 32));
      cbn [andb]; try reflexivity; lia.
Qed.

Section Parts.
Variables (out0 : list Z) (cnt ofs : Z) (f : Z -> Z -> Z).
Hypothesis Hofs : 0 <= ofs.
Hypothesis Hc : 0 <= cnt <= ofs.
Hypothesis Hlen : 8 * (3 * ofs + cnt) <= zlen out0.
Let I (i : Z) (d : list Z) : Prop := given4 ofs (8 * i) f out0 d.

(** Lane i of instance 0, ..., m - 1 has been stored. *)
Let J (i w m : Z) (d : list Z) : Prop := zlen d = zlen out0 /\ forall l t, place ofs l t ->
    znth d (8 * (l * ofs) + t) = if t <? (if l <? m then 8 * (i + w) else 8 * i) then f l t else znth out0 (8 * (l * ofs) + t).

Lemma J_start i w d : I i d -> J i w 0 d.
Proof.
  intros (H1 & H2); split; [auto|]. intros l t Hp. rewrite H2 by auto. destruct Hp as (Hl & _).
  destruct (Z.ltb_spec l 0); [lia|reflexivity].
Qed.
Lemma J_end i w d : J i w 4 d -> I (i + w) d.
Proof.
  intros (H1 & H2); split; [auto|]. intros l t Hp. rewrite H2 by auto. destruct Hp as (Hl & _).
  destruct (Z.ltb_spec l 4); [reflexivity|lia].
Qed.

Lemma one_part i m d x : 0 <= m < 4 -> 0 <= i < cnt -> J i 1 m d -> 0 <= x ->
  (forall t, 0 <= t < 8 -> by8 x t = f m (8 * i + t)) ->
  wp (store64 d (8 * (m * ofs) + 8 * i) x) (J i 1 (m + 1)).
Proof.
  intros Hm Hi (HJ1 & HJ2) Hx Hxb.
  eapply wp_mono; [apply store64_part; auto; [lia|rewrite HJ1; by4 Hm; lia]|].
  intros d' (Hd' & H). split; [lia|]. intros l t Hp. rewrite H, HJ2 by auto. destruct Hp as (Hl & Ht & _).
  destruct (Z.eqb_spec l m) as [->|N]; cbn [andb].
  - destruct (Z.ltb_spec m m); [lia|]. destruct (Z.ltb_spec m (m + 1)); [|lia].
    destruct (Z.eqb_spec (t / 8) i).
    + destruct (Z.ltb_spec t (8 * (i + 1))); [|exfalso; dlia]. rewrite Hxb by dlia. f_equal; dlia.
    + destruct (Z.ltb_spec t (8 * i)); destruct (Z.ltb_spec t (8 * (i + 1))); try reflexivity; exfalso; dlia.
  - destruct (Z.ltb_spec l m); destruct (Z.ltb_spec l (m + 1)); try reflexivity; lia.
Qed.
Lemma four_part i m d v : 0 <= m < 4 -> 0 <= i -> i + 4 <= cnt -> J i 4 m d ->
  (forall j, 0 <= j < 4 -> 0 <= lane v j) ->
  (forall j t, 0 <= j < 4 -> 0 <= t < 8 -> by8 (lane v j) t = f m (8 * (i + j) + t)) ->
  wp (storeu256 d (8 * (m * ofs) + 8 * i) v) (J i 4 (m + 1)).
Proof.
  intros Hm Hi Hi4 (HJ1 & HJ2) Hv Hvb.
  eapply wp_mono; [apply storeu256_part; auto; [lia|rewrite HJ1; by4 Hm; lia]|].
  intros d' (Hd' & H). split; [lia|]. intros l t Hp. rewrite H, HJ2 by auto. destruct Hp as (Hl & Ht & _).
  destruct (Z.eqb_spec l m) as [->|N]; cbn [andb].
  - destruct (Z.ltb_spec m m); [lia|]. destruct (Z.ltb_spec m (m + 1)); [|lia].
    destruct (Z.leb_spec i (t / 8)); destruct (Z.ltb_spec (t / 8) (i + 4)); cbn [andb].
    + destruct (Z.ltb_spec t (8 * (i + 4))); [|exfalso; dlia]. rewrite Hvb by dlia. f_equal; dlia.
    + destruct (Z.ltb_spec t (8 * i)); destruct (Z.ltb_spec t (8 * (i + 4))); try reflexivity; exfalso; dlia.
    + destruct (Z.ltb_spec t (8 * i)); destruct (Z.ltb_spec t (8 * (i + 4))); try reflexivity; exfalso; dlia.
    + destruct (Z.ltb_spec t (8 * i)); destruct (Z.ltb_spec t (8 * (i + 4))); try reflexivity; exfalso; dlia.
  - destruct (Z.ltb_spec l m); destruct (Z.ltb_spec l (m + 1)); try reflexivity; lia.
Qed.
Lemma one_part0 i d x : 0 <= i < cnt -> J i 1 0 d -> 0 <= x -> (forall t, 0 <= t < 8 -> by8 x t = f 0 (8 * i + t)) ->
  wp (store64 d (8 * i) x) (J i 1 (0 + 1)).
Proof. intros; replace (8 * i) with (8 * (0 * ofs) + 8 * i) by lia; apply one_part; auto; lia. Qed.
Lemma four_part0 i d v : 0 <= i -> i + 4 <= cnt -> J i 4 0 d -> (forall j, 0 <= j < 4 -> 0 <= lane v j) ->
  (forall j t, 0 <= j < 4 -> 0 <= t < 8 -> by8 (lane v j) t = f 0 (8 * (i + j) + t)) ->
  wp (storeu256 d (8 * i) v) (J i 4 (0 + 1)).
Proof. intros; replace (8 * i) with (8 * (0 * ofs) + 8 * i) by lia; apply four_part; auto; lia. Qed.
End Parts.

Lemma extr_lane ss i l : st_ok ss -> 0 <= l < 4 -> 0 <= i < 25 ->
  wp (load64 ss (8 * (4 * i + l))) (fun y => 0 <= y < M64 /\ forall t, 0 <= t < 8 -> by8 y t = znth ss (pos l (8 * i + t))).
Proof.
  intros Hok Hl Hi. replace (8 * (4 * i + l)) with (laneAddr l i) by (unfold laneAddr; lia). now apply ld_lane.
Qed.

(** The four registers after UNINTLEAVE: register l has the lanes of instance l. *)
Lemma four_lanes ss i : st_ok ss -> 0 <= i -> i + 4 <= 25 -> forall (A : Type) (K : V256 -> V256 -> V256 -> V256 -> res A) Q,
  (forall v0 v1 v2 v3, (forall l j, 0 <= l < 4 -> 0 <= j < 4 ->
      0 <= lane (sel4 (UNINTLEAVE v0 v1 v2 v3) l) j < M64 /\
      forall t, 0 <= t < 8 -> by8 (lane (sel4 (UNINTLEAVE v0 v1 v2 v3) l) j) t = znth ss (pos l (8 * (i + j) + t))) ->
    wp (K v0 v1 v2 v3) Q) ->
  wp (v0 <- load256b ss (i + 0) ;; v1 <- load256b ss (i + 1) ;; v2 <- load256b ss (i + 2) ;; v3 <- load256b ss (i + 3) ;;
      K v0 v1 v2 v3) Q.
Proof.
  intros Hok Hi Hi4 A K Q HK.
  apply wp_bind. eapply wp_mono; [apply load256b_wp; auto; lia|]. intros v0 H0.
  apply wp_bind. eapply wp_mono; [apply load256b_wp; auto; lia|]. intros v1 H1.
  apply wp_bind. eapply wp_mono; [apply load256b_wp; auto; lia|]. intros v2 H2.
  apply wp_bind. eapply wp_mono; [apply load256b_wp; auto; lia|]. intros v3 H3.
  apply HK. intros l j Hl Hj. rewrite UNINTLEAVE_lane by auto.
  by4 Hj; cbn [sel4 Z.eqb Pos.eqb]; [apply H0|apply H1|apply H2|apply H3]; auto.
Qed.

Lemma ExtractLanesAll_wp ss out0 cnt ofs : st_ok ss -> 0 <= cnt <= 25 -> cnt <= ofs -> 8 * (3 * ofs) < 4294967296 ->
  8 * (3 * ofs + cnt) <= zlen out0 ->
  wp (ExtractLanesAll ss out0 cnt ofs) (given4 ofs (8 * cnt) (fun l t => znth ss (pos l t)) out0).
Proof.
  intros Hok Hc Hofs Hb Hlen. unfold ExtractLanesAll; cbv zeta. rewrite !dataOffset_id by lia.
  set (f := fun l t => znth ss (pos l t)).
  apply (lanes_all_wp (fun i => given4 ofs (8 * i) f out0)); [lia| | |].
  - split; [auto|]. intros l t (_ & Ht & _). destruct (Z.ltb_spec t (8 * 0)); [lia|reflexivity].
  - intros i d Hi HI. apply (J_start out0 ofs f i 1) in HI.
    replace (8 * (4 * i)) with (8 * (4 * i + 0)) by lia.
    apply wp_bind. eapply wp_mono; [apply extr_lane; auto; lia|]. intros x0 (X0 & B0).
    apply wp_bind. eapply wp_mono; [apply (one_part0 out0 cnt ofs f); [lia|lia|lia|lia|exact HI|lia|exact B0]|]. intros d0 J0.
    apply wp_bind. eapply wp_mono; [apply extr_lane; auto; lia|]. intros x1 (X1 & B1).
    apply wp_bind. eapply wp_mono; [apply (one_part out0 cnt ofs f); [lia|lia|lia|lia|lia|exact J0|lia|exact B1]|]. intros d1 J1.
    apply wp_bind. eapply wp_mono; [apply extr_lane; auto; lia|]. intros x2 (X2 & B2).
    apply wp_bind. eapply wp_mono; [apply (one_part out0 cnt ofs f); [lia|lia|lia|lia|lia|exact J1|lia|exact B2]|]. intros d2 J2.
    apply wp_bind. eapply wp_mono; [apply extr_lane; auto; lia|]. intros x3 (X3 & B3).
    eapply wp_mono; [apply (one_part out0 cnt ofs f); [lia|lia|lia|lia|lia|exact J2|lia|exact B3]|]. intros d3 J3.
    apply (J_end out0 ofs f i 1 d3 J3).
  - intros i d Hi Hi4 HI. apply (J_start out0 ofs f i 4) in HI.
    apply four_lanes; auto; [lia|]. intros v0 v1 v2 v3 HH.
    destruct (UNINTLEAVE v0 v1 v2 v3) as (((m0, m1), m2), m3).
    pose proof (fun j => HH 0 j ltac:(lia)) as G0. pose proof (fun j => HH 1 j ltac:(lia)) as G1.
    pose proof (fun j => HH 2 j ltac:(lia)) as G2. pose proof (fun j => HH 3 j ltac:(lia)) as G3.
    cbn [sel4 Z.eqb Pos.eqb] in G0, G1, G2, G3.
    apply wp_bind. eapply wp_mono; [apply (four_part0 out0 cnt ofs f); [lia|lia|lia|lia|lia|exact HI|intros j Hj; apply G0; auto|intros j t Hj Ht; apply G0; auto]|]. intros d0 J0.
    apply wp_bind. eapply wp_mono; [apply (four_part out0 cnt ofs f); [lia|lia|lia|lia|lia|lia|exact J0|intros j Hj; apply G1; auto|intros j t Hj Ht; apply G1; auto]|]. intros d1 J1.
    apply wp_bind. eapply wp_mono; [apply (four_part out0 cnt ofs f); [lia|lia|lia|lia|lia|lia|exact J1|intros j Hj; apply G2; auto|intros j t Hj Ht; apply G2; auto]|]. intros d2 J2.
    eapply wp_mono; [apply (four_part out0 cnt ofs f); [lia|lia|lia|lia|lia|lia|exact J2|intros j Hj; apply G3; auto|intros j t Hj Ht; apply G3; auto]|]. intros d3 J3.
    apply (J_end out0 ofs f i 4 d3 J3).
Qed.

Lemma ExtractAndAddLanesAll_wp ss input out0 cnt ofs : st_ok ss -> bytes_ok input -> 0 <= cnt <= 25 -> cnt <= ofs ->
  8 * (3 * ofs) < 4294967296 -> 8 * (3 * ofs + cnt) <= zlen out0 -> 8 * (3 * ofs + cnt) <= zlen input ->
  wp (ExtractAndAddLanesAll ss input out0 cnt ofs)
    (given4 ofs (8 * cnt) (fun l t => Z.lxor (znth input (8 * (l * ofs) + t)) (znth ss (pos l t))) out0).
Proof.
  intros Hok Hin Hc Hofs Hb Hlen Hlen2. unfold ExtractAndAddLanesAll; cbv zeta. rewrite !dataOffset_id by lia.
  set (f := fun l t => Z.lxor (znth input (8 * (l * ofs) + t)) (znth ss (pos l t))).
  assert (LI : forall l i, 0 <= l < 4 -> 0 <= i < cnt -> wp (load64 input (8 * (l * ofs) + 8 * i))
     (fun y => 0 <= y < M64 /\ forall t, 0 <= t < 8 -> by8 y t = znth input (8 * (l * ofs) + (8 * i + t)))).
  { intros l i Hl Hi. eapply wp_mono; [apply load64_by; [by4 Hl; lia|by4 Hl; lia|now apply bytes_ok_byte_in]|].
    intros y (Hy & H). split; [auto|]. intros t Ht. rewrite H by auto. f_equal; lia. }
  assert (LI4 : forall l i, 0 <= l < 4 -> 0 <= i -> i + 4 <= cnt -> wp (loadu256 input (8 * (l * ofs) + 8 * i))
     (fun v => forall j, 0 <= j < 4 -> 0 <= lane v j < M64 /\
        forall t, 0 <= t < 8 -> by8 (lane v j) t = znth input (8 * (l * ofs) + (8 * (i + j) + t)))).
  { intros l i Hl Hi Hi4. eapply wp_mono; [apply loadu256_wp; auto; by4 Hl; lia|].
    intros v H j Hj. destruct (H j Hj) as (A & B). split; [exact A|]. intros t Ht. rewrite B by auto. f_equal; lia. }
  assert (XO : forall l i y x, 0 <= y < M64 -> 0 <= x < M64 ->
     (forall t, 0 <= t < 8 -> by8 y t = znth input (8 * (l * ofs) + (8 * i + t))) ->
     (forall t, 0 <= t < 8 -> by8 x t = znth ss (pos l (8 * i + t))) ->
     0 <= xor64 y x /\ forall t, 0 <= t < 8 -> by8 (xor64 y x) t = f l (8 * i + t)).
  { intros l i y x Hy Hx Hyb Hxb. split; [apply Z.lxor_nonneg; lia|]. intros t Ht. rewrite by8_xor, Hyb, Hxb by lia. reflexivity. }
  assert (XO4 : forall l i v u,
     (forall j, 0 <= j < 4 -> 0 <= lane u j < M64 /\ forall t, 0 <= t < 8 -> by8 (lane u j) t = znth ss (pos l (8 * (i + j) + t))) ->
     (forall j, 0 <= j < 4 -> 0 <= lane v j < M64 /\ forall t, 0 <= t < 8 -> by8 (lane v j) t = znth input (8 * (l * ofs) + (8 * (i + j) + t))) ->
     (forall j, 0 <= j < 4 -> 0 <= lane (XOR256 u v) j) /\
     (forall j t, 0 <= j < 4 -> 0 <= t < 8 -> by8 (lane (XOR256 u v) j) t = f l (8 * (i + j) + t))).
  { intros l i v u Hu Hv. split.
    - intros j Hj. rewrite lane_XOR by auto. destruct (Hu j Hj) as (? & _); destruct (Hv j Hj) as (? & _). apply Z.lxor_nonneg; lia.
    - intros j t Hj Ht. rewrite lane_XOR, by8_xor by (auto; lia). destruct (Hu j Hj) as (_ & E1). destruct (Hv j Hj) as (_ & E2). rewrite E1, E2 by auto.
      apply Z.lxor_comm. }
  apply (lanes_all_wp (fun i => given4 ofs (8 * i) f out0)); [lia| | |].
  - split; [auto|]. intros l t (_ & Ht & _). destruct (Z.ltb_spec t (8 * 0)); [lia|reflexivity].
  - intros i d Hi HI. apply (J_start out0 ofs f i 1) in HI.
    replace (8 * (4 * i)) with (8 * (4 * i + 0)) by lia.
    apply wp_bind. eapply wp_mono; [pose proof (LI 0 i ltac:(lia) Hi) as L0; cbn [Z.mul Z.add] in L0; exact L0|]. intros y0 (Y0 & C0).
    apply wp_bind. eapply wp_mono; [apply extr_lane; auto; lia|]. intros x0 (X0 & B0).
    destruct (XO 0 i y0 x0 Y0 X0 C0 B0) as (P0 & Q0).
    apply wp_bind. eapply wp_mono; [apply (one_part0 out0 cnt ofs f); [lia|lia|lia|lia|exact HI|exact P0|exact Q0]|]. intros d0 J0.
    apply wp_bind. eapply wp_mono; [apply LI; auto; lia|]. intros y1 (Y1 & C1).
    apply wp_bind. eapply wp_mono; [apply extr_lane; auto; lia|]. intros x1 (X1 & B1).
    destruct (XO 1 i y1 x1 Y1 X1 C1 B1) as (P1 & Q1).
    apply wp_bind. eapply wp_mono; [apply (one_part out0 cnt ofs f); [lia|lia|lia|lia|lia|exact J0|exact P1|exact Q1]|]. intros d1 J1.
    apply wp_bind. eapply wp_mono; [apply LI; auto; lia|]. intros y2 (Y2 & C2).
    apply wp_bind. eapply wp_mono; [apply extr_lane; auto; lia|]. intros x2 (X2 & B2).
    destruct (XO 2 i y2 x2 Y2 X2 C2 B2) as (P2 & Q2).
    apply wp_bind. eapply wp_mono; [apply (one_part out0 cnt ofs f); [lia|lia|lia|lia|lia|exact J1|exact P2|exact Q2]|]. intros d2 J2.
    apply wp_bind. eapply wp_mono; [apply LI; auto; lia|]. intros y3 (Y3 & C3).
    apply wp_bind. eapply wp_mono; [apply extr_lane; auto; lia|]. intros x3 (X3 & B3).
    destruct (XO 3 i y3 x3 Y3 X3 C3 B3) as (P3 & Q3).
    eapply wp_mono; [apply (one_part out0 cnt ofs f); [lia|lia|lia|lia|lia|exact J2|exact P3|exact Q3]|]. intros d3 J3.
    apply (J_end out0 ofs f i 1 d3 J3).
  - intros i d Hi Hi4 HI. apply (J_start out0 ofs f i 4) in HI.
    apply four_lanes; auto; [lia|]. intros v0 v1 v2 v3 HH.
    destruct (UNINTLEAVE v0 v1 v2 v3) as (((m0, m1), m2), m3).
    pose proof (fun j => HH 0 j ltac:(lia)) as G0. pose proof (fun j => HH 1 j ltac:(lia)) as G1.
    pose proof (fun j => HH 2 j ltac:(lia)) as G2. pose proof (fun j => HH 3 j ltac:(lia)) as G3.
    cbn [sel4 Z.eqb Pos.eqb] in G0, G1, G2, G3.
    apply wp_bind. eapply wp_mono; [pose proof (LI4 0 i ltac:(lia) Hi Hi4) as L0; cbn [Z.mul Z.add] in L0; exact L0|]. intros w0 W0.
    apply wp_bind. eapply wp_mono; [apply LI4; auto; lia|]. intros w1 W1.
    apply wp_bind. eapply wp_mono; [apply LI4; auto; lia|]. intros w2 W2.
    apply wp_bind. eapply wp_mono; [apply LI4; auto; lia|]. intros w3 W3.
    destruct (XO4 0 i w0 m0 G0 W0) as (P0 & Q0). destruct (XO4 1 i w1 m1 G1 W1) as (P1 & Q1).
    destruct (XO4 2 i w2 m2 G2 W2) as (P2 & Q2). destruct (XO4 3 i w3 m3 G3 W3) as (P3 & Q3).
    apply wp_bind. eapply wp_mono; [apply (four_part0 out0 cnt ofs f); [lia|lia|lia|lia|lia|exact HI|exact P0|exact Q0]|]. intros d0 J0.
    apply wp_bind. eapply wp_mono; [apply (four_part out0 cnt ofs f); [lia|lia|lia|lia|lia|lia|exact J0|exact P1|exact Q1]|]. intros d1 J1.
    apply wp_bind. eapply wp_mono; [apply (four_part out0 cnt ofs f); [lia|lia|lia|lia|lia|lia|exact J1|exact P2|exact Q2]|]. intros d2 J2.
    eapply wp_mono; [apply (four_part out0 cnt ofs f); [lia|lia|lia|lia|lia|lia|exact J2|exact P3|exact Q3]|]. intros d3 J3.
    apply (J_end out0 ofs f i 4 d3 J3).
Qed.

(* ================================================================== *)
(** * Rounds *)

Local Opaque thetaRhoPiChiIota thetaRhoPiChiIotaPrepareTheta.

Definition rnds (nr : Z) : list Z := map (fun i => 24 - nr + i) (zseq nr).

Lemma zseq_succ n : 0 <= n -> zseq (n + 1) = zseq n ++ [n].
Proof.
  intros Hn. unfold zseq. replace (Z.to_nat (n + 1)) with (Z.to_nat n + 1)%nat by lia.
  rewrite seq_app, map_app; cbn [seq map]; do 2 f_equal; lia.
Qed.

(** After n rounds from round a on. *)
Definition rinva (a : Z) (st : vlanes) (n : Z) (st1 : vlanes) (c : vcols) : Prop :=
  forall l, 0 <= l < 4 -> vproj l st1 = fold_left lstep (map (fun i => a + i) (zseq n)) (vproj l st) /\ cproj l c = cols (vproj l st1).

Lemma rinva_final a st n st1 c : (forall l, 0 <= l < 4 -> u64s_ok (vproj l st)) -> 0 <= n -> 0 <= a + n < 24 -> rinva a st n st1 c ->
  forall l, 0 <= l < 4 -> vproj l (thetaRhoPiChiIota (znth KeccakF_RoundConstants (a + n)) st1 c) =
      fold_left lstep (map (fun i => a + i) (zseq (n + 1))) (vproj l st).
Proof.
  intros Hok Hn Han H l Hl. destruct (H l Hl) as (H1 & H2).
  rewrite final_proj by (auto; rewrite H1; apply fold_lstep_ok; auto using zlen_vproj).
  rewrite H1, zseq_succ, map_app, fold_left_app by lia. reflexivity.
Qed.
Lemma rstepa_wp {A} a st n k st1 c (K : vlanes -> vcols -> res A) Q :
  (forall l, 0 <= l < 4 -> u64s_ok (vproj l st)) -> k = a + n -> 0 <= n -> 0 <= k < 24 -> rinva a st n st1 c ->
  (forall st2 c2, rinva a st (n + 1) st2 c2 -> wp (K st2 c2) Q) ->
  wp (rc <- rd KeccakF_RoundConstants k ;;
      let '(s, c) := thetaRhoPiChiIotaPrepareTheta rc st1 c in K s c) Q.
Proof.
  intros Hok -> Hn Hk H HK.
  apply wp_bind, wp_rd; [change (zlen KeccakF_RoundConstants) with 24; lia|apply RC_range|].
  rewrite prep_final. apply HK. intros l Hl; split; [now apply rinva_final|now apply colsV_cols].
Qed.

(** A function on registers that runs the last nr rounds. *)
Definition runs (nr : Z) (rounds : vlanes -> res vlanes) : Prop :=
  forall st, (forall l, 0 <= l < 4 -> u64s_ok (vproj l st)) ->
    wp (rounds st) (fun st' => forall l, 0 <= l < 4 -> vproj l st' = fold_left lstep (rnds nr) (vproj l st)).

Lemma runs24 : runs 24 rounds24.
Proof. intros st Hok. eapply wp_mono; [now apply rounds24_wp|]. intros st' H l Hl. rewrite H by auto. reflexivity. Qed.
Lemma runs12 : runs 12 rounds12.
Proof.
  intros st Hok; unfold rounds12; rewrite RC4.
  assert (H : rinva 12 st 0 st (prepareTheta st)) by (intros l Hl; split; [reflexivity|now apply prepareTheta_cols]).
  revert H; generalize (prepareTheta st) as c. generalize st at 2 3 as st1. intros st1 c H.
  do 11 (eapply rstepa_wp with (5 := H); [exact Hok|reflexivity|lia|lia|]; clear st1 c H; intros st1 c H).
  apply wp_bind, wp_rd; [change (zlen KeccakF_RoundConstants) with 24; lia|apply RC_range|].
  apply wp_ret. intros l Hl. exact (rinva_final 12 st 11 st1 c Hok ltac:(lia) ltac:(lia) H l Hl).
Qed.

(* ================================================================== *)
(** * Registers and bytes *)

(** L holds the 200 bytes S as 25 lanes. *)
Definition rep (S L : list Z) : Prop :=
  zlen L = 25 /\ u64s_ok L /\ forall k, 0 <= k < 200 -> by8 (znth L (k / 8)) (k mod 8) = znth S k.

Lemma rep_bits S L : zlen S = 200 -> rep S L -> bytes_to_bits S = lanes_bits L.
Proof.
  intros HS (HL & Hok & H). apply blist_ext; [rewrite zlen_bytes_to_bits, zlen_lanes_bits; lia|].
  rewrite zlen_bytes_to_bits. intros k Hk. rewrite bnth_bytes_to_bits by lia. unfold lanes_bits; rewrite bnth_ztab by lia.
  rewrite <- H by dlia. rewrite by8_testbit by dlia. f_equal; [f_equal; dlia|dlia].
Qed.
Lemma znth_bytes n s i : 0 <= i < n -> znth (bits_to_bytes n s) i = Kbyte s i.
Proof. intros Hi. unfold bits_to_bytes, Kbyte. rewrite znth_ztab by lia. reflexivity. Qed.
Lemma rep_bytes L : zlen L = 25 -> u64s_ok L -> rep (bits_to_bytes 200 (lanes_bits L)) L.
Proof.
  intros HL Hok. split; [auto|split; [auto|]]. intros k Hk. rewrite znth_bytes by lia. unfold by8. rewrite Kbyte_lanes by auto. reflexivity.
Qed.
Lemma rep_inj S S' L : zlen S = 200 -> zlen S' = 200 -> rep S L -> rep S' L -> S = S'.
Proof.
  intros HS HS' (_ & _ & H) (_ & _ & H'). apply list_ext; [lia|]. intros k Hk. rewrite <- H, <- H' by lia. reflexivity.
Qed.

Lemma keccak_p_lanes nr L : 0 <= nr <= 24 -> u64s_ok L -> zlen L = 25 ->
  keccak_p nr (lanes_bits L) = lanes_bits (fold_left lstep (rnds nr) L).
Proof.
  intros Hnr H1 H2; unfold keccak_p, to_string, lanes_bits at 2; apply ztab_ext; intros k Hk.
  assert (In24 : forall r, In r (rnds nr) -> 0 <= r < 24).
  { intros r Hr; unfold rnds, zseq in Hr; apply in_map_iff in Hr; destruct Hr as (n & <- & Hn).
    apply in_map_iff in Hn; destruct Hn as (m & <- & Hm). apply in_seq in Hm; lia. }
  pose proof (fold_lstep_bits (rnds nr) L In24 H1 H2) as HB.
  assert (HA : aeq (of_string (lanes_bits L)) (AL (znth L))).
  { intros x y z Hx Hy Hz; unfold of_string, AL.
    change (bnth (lanes_bits L) (64 * (5 * y + x) + z) = Z.testbit (znth L (x + 5 * y)) z).
    unfold lanes_bits; rewrite bnth_ztab by lia.
    replace ((64 * (5 * y + x) + z) / 64) with (x + 5 * y) by dlia.
    replace ((64 * (5 * y + x) + z) mod 64) with z by dlia.
    reflexivity. }
  fold (rnds nr). rewrite (fold_Rnd_ext (rnds nr) _ _ HA) by dlia.
  rewrite <- HB by dlia.
  unfold AL.
  replace ((k / 64) mod 5 + 5 * (k / 320)) with (k / 64) by dlia.
  reflexivity.
Qed.

Lemma zlen_permute nr S : zlen (permute nr S) = 200.
Proof. unfold permute, bits_to_bytes. apply zlen_ztab; lia. Qed.
Lemma rep_permute nr S L : 0 <= nr <= 24 -> zlen S = 200 -> rep S L -> rep (permute nr S) (fold_left lstep (rnds nr) L).
Proof.
  intros Hnr HS HR. pose proof HR as (HL & Hok & _). unfold permute. rewrite (rep_bits S L), keccak_p_lanes by auto.
  apply rep_bytes; apply fold_lstep_ok; auto.
Qed.

Lemma case25 (P : Z -> Prop) : P 0 -> P 1 -> P 2 -> P 3 -> P 4 -> P 5 -> P 6 -> P 7 -> P 8 -> P 9 -> P 10 -> P 11 -> P 12 ->
  P 13 -> P 14 -> P 15 -> P 16 -> P 17 -> P 18 -> P 19 -> P 20 -> P 21 -> P 22 -> P 23 -> P 24 -> forall i, 0 <= i < 25 -> P i.
Proof.
  intros. assert (E : i = 0 \/ i = 1 \/ i = 2 \/ i = 3 \/ i = 4 \/ i = 5 \/ i = 6 \/ i = 7 \/ i = 8 \/ i = 9 \/ i = 10 \/ i = 11 \/ i = 12 \/
    i = 13 \/ i = 14 \/ i = 15 \/ i = 16 \/ i = 17 \/ i = 18 \/ i = 19 \/ i = 20 \/ i = 21 \/ i = 22 \/ i = 23 \/ i = 24) by lia.
  repeat (destruct E as [->|E]; [assumption|]). subst; assumption.
Qed.

Ltac by25 := match goal with |- forall i, _ -> @?P i => apply (case25 P) end.

(** Register i of the 25. *)
Definition reg (st : vlanes) (i : Z) : V256 :=
  let '(a0, a1, a2, a3, a4, a5, a6, a7, a8, a9, a10, a11, a12, a13, a14, a15, a16, a17, a18, a19, a20, a21, a22, a23, a24) := st in
  nth (Z.to_nat i) [a0; a1; a2; a3; a4; a5; a6; a7; a8; a9; a10; a11; a12; a13; a14; a15; a16; a17; a18; a19; a20; a21; a22; a23; a24] (0, 0, 0, 0).
Lemma vproj_reg l st i : 0 <= i < 25 -> znth (vproj l st) i = lane (reg st i) l.
Proof. intros Hi; do 24 destruct st as [st ?]; revert i Hi; apply case25; reflexivity. Qed.
Lemma vproj_u64 l st : (forall i, 0 <= i < 25 -> 0 <= lane (reg st i) l < M64) -> u64s_ok (vproj l st).
Proof. intros H. apply inrange_intro. rewrite zlen_vproj. intros i Hi. rewrite vproj_reg by auto. now apply H. Qed.

Lemma copyFromState_wp ss : st_ok ss ->
  wp (copyFromState ss) (fun st => forall l, 0 <= l < 4 -> rep (inst l ss) (vproj l st)).
Proof.
  intros Hok. unfold copyFromState.
  assert (G : wp (copyFromState ss) (fun st => forall i, 0 <= i < 25 -> forall l, 0 <= l < 4 -> 0 <= lane (reg st i) l < M64 /\
     forall t, 0 <= t < 8 -> by8 (lane (reg st i) l) t = znth ss (pos l (8 * i + t)))).
  { unfold copyFromState.
    do 25 (apply wp_bind; eapply wp_mono; [apply load256b_wp; [exact Hok|lia]|]; intros ? ?).
    apply wp_ret. by25; cbv beta; assumption. }
  eapply wp_mono; [exact G|]. intros st H l Hl. split; [apply zlen_vproj|]. split.
  - apply vproj_u64. intros i Hi. now apply H.
  - intros k Hk. rewrite vproj_reg by dlia. destruct (H (k / 8) ltac:(dlia) l Hl) as (_ & E). rewrite E by dlia.
    rewrite znth_inst by auto. do 2 f_equal. dlia.
Qed.

Lemma copyToState_wp ss st (S : Z -> list Z) : zlen ss = 800 -> (forall l, 0 <= l < 4 -> zlen (S l) = 200 /\ rep (S l) (vproj l st)) ->
  wp (copyToState ss st) (fun ss' => zlen ss' = 800 /\ forall l, 0 <= l < 4 -> inst l ss' = S l).
Proof.
  intros Hs HR.
  assert (N : forall i, 0 <= i < 25 -> forall j, 0 <= j < 4 -> 0 <= lane (reg st i) j).
  { intros i Hi j Hj. destruct (HR j Hj) as (_ & _ & U & _). rewrite <- vproj_reg by auto.
    apply (inrange_znth_all M64); auto; reflexivity. }
  assert (G : wp (copyToState ss st) (fun ss' => zlen ss' = 800 /\ forall i, 0 <= i < 25 -> forall l k, 0 <= l < 4 -> 0 <= k < 200 ->
     k / 8 = i -> znth ss' (pos l k) = by8 (lane (reg st i) l) (k mod 8))).
  { pose proof (N 0 ltac:(lia)); pose proof (N 1 ltac:(lia)); pose proof (N 2 ltac:(lia)); pose proof (N 3 ltac:(lia));
    pose proof (N 4 ltac:(lia)); pose proof (N 5 ltac:(lia)); pose proof (N 6 ltac:(lia)); pose proof (N 7 ltac:(lia));
    pose proof (N 8 ltac:(lia)); pose proof (N 9 ltac:(lia)); pose proof (N 10 ltac:(lia)); pose proof (N 11 ltac:(lia));
    pose proof (N 12 ltac:(lia)); pose proof (N 13 ltac:(lia)); pose proof (N 14 ltac:(lia)); pose proof (N 15 ltac:(lia));
    pose proof (N 16 ltac:(lia)); pose proof (N 17 ltac:(lia)); pose proof (N 18 ltac:(lia)); pose proof (N 19 ltac:(lia));
    pose proof (N 20 ltac:(lia)); pose proof (N 21 ltac:(lia)); pose proof (N 22 ltac:(lia)); pose proof (N 23 ltac:(lia));
    pose proof (N 24 ltac:(lia)). clear N HR.
    do 24 destruct st as [st ?]. unfold copyToState.
    do 25 (apply wp_bind; eapply wp_mono; [apply store256b_wp; [exact Hs|lia|assumption]|];
      let s1 := fresh "s" in let L := fresh "L" in let E := fresh "E" in
      intros s1 (L & E); clear Hs; rename L into Hs).
    apply wp_ret; split; [exact Hs|]. intros i Hi l k Hl Hk.
    rewrite E23, E22, E21, E20, E19, E18, E17, E16, E15, E14, E13, E12, E11, E10, E9, E8, E7, E6, E5, E4, E3, E2, E1, E0, E by auto.
    intros ->. revert i Hi. by25; reflexivity. }
  eapply wp_mono; [exact G|]. intros ss' (Hs' & H). split; [auto|]. intros l Hl.
  destruct (HR l Hl) as (HS & _ & _ & HB). apply inst_ext; [auto|]. intros k Hk.
  rewrite (H (k / 8)) by (auto; dlia). rewrite <- vproj_reg by dlia. now apply HB.
Qed.

Lemma PermuteAll_wp nr rounds ss : 0 <= nr <= 24 -> runs nr rounds -> st_ok ss ->
  wp (PermuteAll rounds true ss) (fun ss' => zlen ss' = 800 /\ forall l, 0 <= l < 4 -> inst l ss' = permute nr (inst l ss)).
Proof.
  intros Hnr HR Hok. unfold PermuteAll. apply wp_bind, wp_ret.
  apply wp_bind. eapply wp_mono; [now apply copyFromState_wp|]. intros st Hst.
  apply wp_bind. eapply wp_mono; [apply HR; intros l Hl; now apply (Hst l)|]. intros st' Hst'.
  eapply wp_mono; [apply (copyToState_wp ss st' (fun l => permute nr (inst l ss))); [apply Hok|]|intros ss' H; exact H].
  intros l Hl. split; [apply zlen_permute|]. rewrite Hst' by auto. apply rep_permute; [auto|apply zlen_inst|now apply Hst].
Qed.

(* ================================================================== *)
(** * In terms of the specification *)

Lemma zlen_add_at off d S : zlen (add_at off d S) = zlen S.
Proof. unfold add_at. apply zlen_ztab. apply zlen_nonneg. Qed.
Lemma znth_add_at off d S k : 0 <= k < zlen S ->
  znth (add_at off d S) k = if (off <=? k) && (k <? off + zlen d) then Z.lxor (znth S k) (znth d (k - off)) else znth S k.
Proof. intros; unfold add_at; now rewrite znth_ztab. Qed.
Lemma add_at_ok off d S : bytes_ok d -> bytes_ok S -> bytes_ok (add_at off d S).
Proof.
  intros Hd HS. apply inrange_ztab. intros k Hk.
  assert (forall L j, bytes_ok L -> 0 <= znth L j < 256) by (intros; apply inrange_znth_all; auto; lia).
  destruct (_ && _); [apply lxor_byte|]; auto.
Qed.

Lemma done_other l lo hi f ss0 ss l' : done l lo hi f ss0 ss -> 0 <= l' < 4 -> l' <> l -> inst l' ss = inst l' ss0.
Proof.
  intros (_ & H) Hl' N. apply inst_ext; [apply zlen_inst|]. intros k Hk. rewrite H, znth_inst by auto.
  destruct (Z.eqb_spec l' l); [contradiction|reflexivity].
Qed.
Lemma done_add l off d ss0 ss : 0 <= l < 4 -> 0 <= off -> done l off (off + zlen d) (fun k => Z.lxor (znth ss0 (pos l k)) (znth d (k - off))) ss0 ss ->
  inst l ss = add_at off d (inst l ss0).
Proof.
  intros Hl Ho (_ & H). apply inst_ext; [rewrite zlen_add_at; apply zlen_inst|]. intros k Hk.
  rewrite H, znth_add_at, !znth_inst by (rewrite ?zlen_inst; auto). rewrite Z.eqb_refl; cbn [andb]. reflexivity.
Qed.
Lemma done_put l off d ss0 ss : 0 <= l < 4 -> 0 <= off -> off + zlen d <= 200 -> done l off (off + zlen d) (fun k => znth d (k - off)) ss0 ss ->
  inst l ss = put_at off d (inst l ss0).
Proof.
  intros Hl Ho Hd (_ & H). unfold put_at. pose proof (zlen_nonneg d).
  apply inst_ext; [rewrite zlen_zsplice; rewrite ?zlen_inst; lia|]. intros k Hk.
  rewrite H, znth_zsplice, !znth_inst by (rewrite ?zlen_inst; auto). rewrite Z.eqb_refl; cbn [andb]. reflexivity.
Qed.

Lemma zlen_part data cnt ofs l : 0 <= l < 4 -> 0 <= cnt -> 0 <= ofs -> 8 * (3 * ofs + cnt) <= zlen data -> zlen (part data cnt ofs l) = 8 * cnt.
Proof. intros Hl Hc Ho Hd. unfold part. apply zlen_zslice; by4 Hl; lia. Qed.
Lemma znth_part data cnt ofs l k : 0 <= l < 4 -> 0 <= ofs -> 0 <= k < 8 * cnt -> znth (part data cnt ofs l) k = znth data (8 * (l * ofs) + k).
Proof. intros Hl Ho Hk. unfold part. apply znth_zslice; by4 Hl; lia. Qed.
Lemma znth_skipn data o k : 0 <= o -> 0 <= k -> znth (skipn (Z.to_nat o) data) k = znth data (o + k).
Proof.
  intros Ho Hk. unfold znth. destruct (Z.ltb_spec k 0); [lia|]. destruct (Z.ltb_spec (o + k) 0); [lia|].
  rewrite nth_skipn_d. f_equal. lia.
Qed.
Lemma zlen_skipn {A} (d : list A) o : 0 <= o <= zlen d -> zlen (skipn (Z.to_nat o) d) = zlen d - o.
Proof. intros; unfold zlen in *; rewrite skipn_length; lia. Qed.
Lemma bytes_skipn d n : bytes_ok d -> bytes_ok (skipn n d).
Proof.
  intros H. revert d H. induction n as [|n IH]; intros d H; [exact H|]. destruct d as [|x d]; [exact H|]. cbn [skipn].
  apply IH. now inversion H.
Qed.

Lemma doneall_add o cnt ofs data ss0 ss l : 0 <= l < 4 -> 0 <= o -> 0 <= cnt -> 0 <= ofs -> o + 8 * (3 * ofs + cnt) <= zlen data ->
  doneall (8 * cnt) (fun l k => Z.lxor (znth ss0 (pos l k)) (znth data (o + 8 * (l * ofs) + k))) ss0 ss ->
  inst l ss = add_at 0 (part (skipn (Z.to_nat o) data) cnt ofs l) (inst l ss0).
Proof.
  intros Hl Ho Hc Hofs Hd (_ & H). apply inst_ext; [rewrite zlen_add_at; apply zlen_inst|]. intros k Hk.
  rewrite H, znth_add_at, !znth_inst by (rewrite ?zlen_inst; auto).
  rewrite zlen_part by (auto; rewrite zlen_skipn; lia).
  destruct (Z.leb_spec 0 k); [|lia]. cbn [andb]. rewrite Z.add_0_l, Z.sub_0_r. destruct (Z.ltb_spec k (8 * cnt)); [|reflexivity].
  rewrite znth_part, znth_skipn by (auto; by4 Hl; lia). do 2 f_equal; lia.
Qed.
Lemma doneall_put cnt ofs data ss0 ss l : 0 <= l < 4 -> 0 <= cnt <= 25 -> 0 <= ofs -> 8 * (3 * ofs + cnt) <= zlen data ->
  doneall (8 * cnt) (fun l k => znth data (8 * (l * ofs) + k)) ss0 ss ->
  inst l ss = put_at 0 (part data cnt ofs l) (inst l ss0).
Proof.
  intros Hl Hc Hofs Hd (_ & H). unfold put_at.
  pose proof (zlen_part data cnt ofs l Hl ltac:(lia) Hofs Hd) as ZP.
  apply inst_ext; [rewrite zlen_zsplice; rewrite ?zlen_inst; lia|]. intros k Hk.
  rewrite H, znth_zsplice, !znth_inst by (rewrite ?zlen_inst; auto; lia). rewrite ZP.
  destruct (Z.leb_spec 0 k); [|lia]. cbn [andb]. rewrite Z.add_0_l, Z.sub_0_r. destruct (Z.ltb_spec k (8 * cnt)); [|reflexivity].
  now rewrite znth_part by lia.
Qed.

Lemma given4_list ofs cnt f out0 out p : 0 <= cnt <= ofs -> 8 * (3 * ofs + cnt) <= zlen out0 ->
  (forall l, 0 <= l < 4 -> zlen (p l) = 8 * cnt /\ forall t, 0 <= t < 8 * cnt -> znth (p l) t = f l t) ->
  given4 ofs (8 * cnt) f out0 out -> out = put_parts ofs p out0.
Proof.
  intros Hc Hl Hp (HL & H).
  destruct (Hp 0 ltac:(lia)) as (L0 & P0); destruct (Hp 1 ltac:(lia)) as (L1 & P1);
  destruct (Hp 2 ltac:(lia)) as (L2 & P2); destruct (Hp 3 ltac:(lia)) as (L3 & P3).
  assert (Z0 : zlen (put_at (8 * (0 * ofs)) (p 0) out0) = zlen out0) by (apply zlen_zsplice; lia).
  assert (Z1 : zlen (put_at (8 * (1 * ofs)) (p 1) (put_at (8 * (0 * ofs)) (p 0) out0)) = zlen out0)
    by (unfold put_at at 1; rewrite zlen_zsplice; lia).
  assert (Z2 : zlen (put_at (8 * (2 * ofs)) (p 2) (put_at (8 * (1 * ofs)) (p 1) (put_at (8 * (0 * ofs)) (p 0) out0))) = zlen out0)
    by (unfold put_at at 1; rewrite zlen_zsplice; lia).
  unfold put_parts.
  apply list_ext; [unfold put_at at 1; rewrite zlen_zsplice; lia|]. intros j Hj.
  unfold put_at at 1; rewrite znth_zsplice by lia. unfold put_at at 1; rewrite znth_zsplice by lia.
  unfold put_at at 1; rewrite znth_zsplice by lia. unfold put_at at 1; rewrite znth_zsplice by lia.
  rewrite L0, L1, L2, L3.
  assert (PL : exists l t, place ofs l t /\ j = 8 * (l * ofs) + t).
  { destruct (Z.ltb_spec j (8 * ofs)); [exists 0, j; unfold place; lia|].
    destruct (Z.ltb_spec j (16 * ofs)); [exists 1, (j - 8 * ofs); unfold place; lia|].
    destruct (Z.ltb_spec j (24 * ofs)); [exists 2, (j - 16 * ofs); unfold place; lia|].
    exists 3, (j - 24 * ofs); unfold place; lia. }
  destruct PL as (l & t & HP & ->). rewrite H by auto. destruct HP as (HPl & Ht & Ht3).
  assert (IN : forall m, 0 <= m < 4 -> (8 * (m * ofs) <=? 8 * (l * ofs) + t) && (8 * (l * ofs) + t <? 8 * (m * ofs) + 8 * cnt) =
     (m =? l) && (t <? 8 * cnt)).
  { intros m Hm. destruct (Z.eqb_spec m l) as [->|N]; cbn [andb].
    - destruct (Z.leb_spec (8 * (l * ofs)) (8 * (l * ofs) + t)); [|lia]. cbn [andb].
      destruct (Z.ltb_spec (8 * (l * ofs) + t) (8 * (l * ofs) + 8 * cnt)); destruct (Z.ltb_spec t (8 * cnt)); reflexivity || lia.
    - assert (~ (8 * (m * ofs) <= 8 * (l * ofs) + t < 8 * (m * ofs) + 8 * cnt)) by (by4 Hm; by4 HPl; lia).
      destruct (Z.leb_spec (8 * (m * ofs)) (8 * (l * ofs) + t)); destruct (Z.ltb_spec (8 * (l * ofs) + t) (8 * (m * ofs) + 8 * cnt));
        reflexivity || lia. }
  rewrite !IN by lia. destruct (Z.ltb_spec t (8 * cnt)); rewrite ?andb_true_r, ?andb_false_r; [|reflexivity].
  by4 HPl; cbn [Z.eqb Pos.eqb]; [rewrite P0 by lia|rewrite P1 by lia|rewrite P2 by lia|rewrite P3 by lia]; f_equal; lia.
Qed.

(* ================================================================== *)
(** * Absorbing *)

Lemma xor_in21_wp data o lop st (S : Z -> list Z) : bytes_ok data -> 0 <= o -> 0 <= lop -> 8 * (3 * lop) < 4294967296 ->
  o + 8 * (3 * lop + 21) <= zlen data ->
  (forall l, 0 <= l < 4 -> zlen (S l) = 200 /\ rep (S l) (vproj l st)) ->
  wp (xor_in21 data o lop st) (fun st' => forall l, 0 <= l < 4 ->
     rep (add_at 0 (part (skipn (Z.to_nat o) data) 21 lop l) (S l)) (vproj l st')).
Proof.
  intros Hd Ho Hlop Hb Hlen HR.
  assert (U : forall i, 0 <= i < 25 -> forall l, 0 <= l < 4 -> 0 <= lane (reg st i) l < M64).
  { intros i Hi l Hl. destruct (HR l Hl) as (_ & _ & U & _). rewrite <- vproj_reg by auto.
    apply (inrange_znth_all M64); auto; reflexivity. }
  assert (G : wp (xor_in21 data o lop st) (fun st' => forall i, 0 <= i < 25 ->
     if i <? 21 then exists v, reg st' i = XOR256 (reg st i) v /\ forall l, 0 <= l < 4 -> 0 <= lane v l < M64 /\
        forall t, 0 <= t < 8 -> by8 (lane v l) t = znth data (o + 8 * (l * lop) + 8 * i + t)
     else reg st' i = reg st i)).
  { clear HR U. do 24 destruct st as [st ?]. unfold xor_in21; cbv zeta.
    do 21 (apply wp_bind, wp_bind; eapply wp_mono; [apply gather_wp; auto; lia|]; intros ? ?; apply wp_ret).
    apply wp_ret. by25; cbv beta; cbn [Z.ltb Z.compare Pos.compare Pos.compare_cont]; try reflexivity; eexists; (split; [reflexivity|assumption]). }
  eapply wp_mono; [exact G|]. intros st' H l Hl. cbv beta in H.
  assert (Y : forall i, 0 <= i < 25 -> 0 <= lane (reg st' i) l < M64).
  { intros i Hi. pose proof (H i Hi) as Hi2. destruct (i <? 21); [|rewrite Hi2; now apply U].
    destruct Hi2 as (v & -> & Hv). rewrite lane_XOR by auto. apply xor64_range; [now apply U|now apply Hv]. }
  split; [apply zlen_vproj|]. split; [now apply vproj_u64|].
  intros k Hk. destruct (HR l Hl) as (HS & _ & _ & HB). rewrite znth_add_at by lia.
  rewrite zlen_part by (auto; try lia; rewrite zlen_skipn; lia).
  rewrite <- HB, !vproj_reg by dlia. pose proof (H (k / 8) ltac:(dlia)) as Hi.
  destruct (Z.leb_spec 0 k); [|lia]. cbn [andb]. rewrite Z.add_0_l, Z.sub_0_r.
  destruct (Z.ltb_spec (k / 8) 21); destruct (Z.ltb_spec k (8 * 21)); try (exfalso; dlia); [|now rewrite Hi].
  destruct Hi as (v & -> & Hv). rewrite lane_XOR, by8_xor by (auto; dlia). f_equal.
  destruct (Hv l Hl) as (_ & E). rewrite E by dlia. rewrite znth_part, znth_skipn by (auto; by4 Hl; lia). f_equal. dlia.
Qed.

Lemma permute_ok nr S : bytes_ok (permute nr S).
Proof.
  apply inrange_intro. rewrite zlen_permute. intros i Hi. unfold permute. rewrite znth_bytes by lia. apply Kbyte_range.
Qed.
Lemma zlen_absorbn nr data cnt lop los n l S : zlen S = 200 -> 0 <= n -> zlen (absorbn nr data cnt lop los n l S) = 200.
Proof.
  intros HS Hn. unfold absorbn. destruct (Z.eqb_spec n 0) as [->|N]; [exact HS|].
  replace n with (n - 1 + 1) by lia. rewrite zseq_succ, fold_left_app by lia. cbn [fold_left]. apply zlen_permute.
Qed.
Lemma absorbn_succ nr data cnt lop los n l S : 0 <= n ->
  absorbn nr data cnt lop los (n + 1) l S = absorb1 nr data cnt lop los l (absorbn nr data cnt lop los n l S) n.
Proof. intros Hn. unfold absorbn. now rewrite zseq_succ, fold_left_app by lia. Qed.

Lemma blocks_exit cnt lop los len n : 0 < los -> 0 <= n -> 0 <= 3 * lop + cnt ->
  (n = 0 \/ 8 * (3 * lop + cnt) <= len - 8 * (los * n) + 8 * los) -> len - 8 * (los * n) < 8 * (3 * lop + cnt) ->
  n = blocks cnt lop los len.
Proof.
  intros Hl Hn Hc H1 H2. unfold blocks. destruct (Z.ltb_spec len (8 * (3 * lop + cnt))) as [L|L].
  - destruct H1 as [->|H1]; [reflexivity|].
    assert (n < 1); [|lia]. apply Z.lt_nge; intros G. assert (los * 1 <= los * n) by (apply Z.mul_le_mono_nonneg_l; lia). lia.
  - destruct H1 as [->|H1]; [lia|].
    assert (E : (len - 8 * (3 * lop + cnt)) / (8 * los) = n - 1).
    { symmetry. apply Z.div_unique with (r := len - 8 * (3 * lop + cnt) - 8 * los * (n - 1)); [left|]; lia. }
    rewrite E. lia.
Qed.

Section Fast.
Variables (nr : Z) (rounds : vlanes -> res vlanes) (ss : list Z) (cnt lop los : Z) (data : list Z) (len : Z).
Hypothesis Hnr : 0 <= nr <= 24.
Hypothesis Hruns : runs nr rounds.
Hypothesis Hok : st_ok ss.
Hypothesis Hd : bytes_ok data.
Hypothesis Hc : 0 <= cnt <= 25.
Hypothesis Hlop : 0 <= lop.
Hypothesis Hlos : 0 < los <= 3 * lop + cnt.
Hypothesis Hb : 8 * (3 * lop + cnt) < 4294967296.
Hypothesis Hlen : 0 <= len <= zlen data.
Hypothesis Hlen64 : len < M64.

Let A (n l : Z) : list Z := absorbn nr data cnt lop los n l (inst l ss).

Lemma A_len n l : 0 <= n -> zlen (A n l) = 200.
Proof. intros Hn. unfold A. exact (zlen_absorbn nr data cnt lop los n l (inst l ss) (zlen_inst l ss) Hn). Qed.
Lemma A_step n l : 0 <= n ->
  A (n + 1) l = permute nr (add_at 0 (part (skipn (Z.to_nat (8 * (los * n))) data) cnt lop l) (A n l)).
Proof. intros Hn. unfold A. rewrite absorbn_succ by exact Hn. unfold absorb1. rewrite (Z.mul_comm n los). reflexivity. Qed.

Lemma need_id : u32 (u32 (u32 (lop * 3) + cnt) * 8) = 8 * (3 * lop + cnt).
Proof.
  unfold u32. change (2 ^ 32) with 4294967296. rewrite (Z.mod_small (lop * 3)) by lia.
  rewrite (Z.mod_small (lop * 3 + cnt)) by lia. rewrite Z.mod_small by lia. lia.
Qed.
Lemma used_id : u32 (los * 8) = 8 * los.
Proof. unfold u32. change (2 ^ 32) with 4294967296. rewrite Z.mod_small by lia. lia. Qed.

Lemma FastLoop_wp fuel : (Z.to_nat len < fuel)%nat ->
  wp (FastLoop_Absorb rounds true fuel ss cnt lop los data len) (fun '(ss', o) =>
     zlen ss' = 800 /\ o = 8 * (los * blocks cnt lop los len) /\
     forall l, 0 <= l < 4 -> inst l ss' = A (blocks cnt lop los len) l).
Proof.
  intros Hf. unfold FastLoop_Absorb; cbv zeta. rewrite need_id, used_id.
  apply wp_branch; intros B.
  - apply Z.eqb_eq in B.
    apply wp_bind. eapply wp_mono; [now apply copyFromState_wp|]. intros st0 Hst0.
    apply wp_bind.
    eapply wp_loop with (mu := fun '(_, dl, _) => Z.to_nat dl)
      (I := fun '(st, dl, o) => exists n, 0 <= n /\ dl = len - 8 * (los * n) /\ 0 <= dl /\ o = 8 * (los * n) /\
         (n = 0 \/ 8 * (3 * lop + cnt) <= dl + 8 * los) /\
         forall l, 0 <= l < 4 -> zlen (A n l) = 200 /\ rep (A n l) (vproj l st)).
    + exists 0. split; [lia|]. split; [lia|]. split; [lia|]. split; [lia|]. split; [now left|].
      intros l Hl. split; [now apply A_len|]. now apply Hst0.
    + exact Hf.
    + intros ((st, dl), o) (n & Hn & E & Hdl & Eo & Hx & HR).
      apply wp_branch; intros B2; [apply Z.leb_le in B2|apply Z.leb_gt in B2].
      * assert (0 <= los * n) by (apply Z.mul_nonneg_nonneg; lia).
        apply wp_bind. eapply wp_mono; [apply (xor_in21_wp data o lop st (A n)); auto; lia|]. intros st1 H1. cbv beta in H1.
        apply wp_bind, wp_ret.
        apply wp_bind. eapply wp_mono; [apply Hruns; intros l Hl; now apply (H1 l)|]. intros st2 H2. cbv beta in H2.
        apply wp_ret. cbn [fst snd].
        assert (Eu : u64 (dl - 8 * los) = dl - 8 * los) by (apply Z.mod_small; change 18446744073709551616 with M64; lia).
        rewrite Eu. split; [|lia].
        exists (n + 1). split; [lia|]. split; [lia|]. split; [lia|]. split; [lia|]. split; [lia|].
        intros l Hl. split; [apply A_len; lia|]. rewrite A_step, H2 by auto. apply rep_permute; auto.
        -- rewrite zlen_add_at. now apply A_len.
        -- pose proof (H1 l Hl) as H1l. rewrite Eo in H1l. rewrite B. exact H1l.
      * apply wp_ret. cbn [fst snd].
        assert (En : n = blocks cnt lop los len) by (apply blocks_exit; lia).
        apply wp_bind. eapply wp_mono; [apply (copyToState_wp ss st (A n)); [apply Hok|exact HR]|].
        intros ss' (Hs' & H). apply wp_ret. rewrite <- En. auto.
  - apply wp_bind.
    eapply wp_loop with (mu := fun '(_, dl, _) => Z.to_nat dl)
      (I := fun '(s, dl, o) => exists n, 0 <= n /\ dl = len - 8 * (los * n) /\ 0 <= dl /\ o = 8 * (los * n) /\
         (n = 0 \/ 8 * (3 * lop + cnt) <= dl + 8 * los) /\ st_ok s /\
         forall l, 0 <= l < 4 -> inst l s = A n l).
    + exists 0. split; [lia|]. split; [lia|]. split; [lia|]. split; [lia|]. split; [now left|]. split; [exact Hok|].
      intros l Hl. reflexivity.
    + exact Hf.
    + intros ((s, dl), o) (n & Hn & E & Hdl & Eo & Hx & Hs & HA).
      apply wp_branch; intros B2; [apply Z.leb_le in B2|apply Z.leb_gt in B2].
      * assert (0 <= los * n) by (apply Z.mul_nonneg_nonneg; lia).
        apply wp_bind. eapply wp_mono; [apply AddLanesAll_wp; auto; lia|]. intros s1 D1. cbv beta in D1.
        assert (Hs1 : st_ok s1).
        { eapply doneall_ok; [exact Hs| |exact D1]. intros l k. cbv beta. apply lxor_byte; [now apply st_byte|apply inrange_znth_all; auto; lia]. }
        apply wp_bind. eapply wp_mono; [apply (PermuteAll_wp nr); auto|]. intros s2 (L2 & H2).
        apply wp_ret. cbn [fst snd].
        assert (Eu : u64 (dl - 8 * los) = dl - 8 * los) by (apply Z.mod_small; change 18446744073709551616 with M64; lia).
        rewrite Eu. split; [|lia].
        assert (HA2 : forall l, 0 <= l < 4 -> inst l s2 = A (n + 1) l).
        { intros l Hl. rewrite H2, A_step by auto. f_equal. rewrite (doneall_add o cnt lop data s s1 l) by (auto; lia).
          rewrite Eo, HA by auto. reflexivity. }
        exists (n + 1). split; [lia|]. split; [lia|]. split; [lia|]. split; [lia|]. split; [lia|]. split; [|exact HA2].
        apply st_ok_intro; [auto|]. intros l Hl. rewrite HA2, A_step by auto. apply permute_ok.
      * apply wp_ret. cbn [fst snd].
        assert (En : n = blocks cnt lop los len) by (apply blocks_exit; lia).
        apply wp_ret. rewrite <- En. split; [apply Hs|]. auto.
Qed.
End Fast.
