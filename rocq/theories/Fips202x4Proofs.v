(** src/sha3/fips202x4.c: the four-way SHAKE128 computes four independent SHAKE128s. *)
From Verif Require Import CSem Params Util UtilSpec UtilProofs Fips202 KeccakSpec KeccakProofs ShakeProofs Fips202x4.

(* ================================================================== *)
(** * Registers, lane by lane *)

Lemma four l : 0 <= l < 4 -> l = 0 \/ l = 1 \/ l = 2 \/ l = 3.
Proof. lia. Qed.
Ltac by4 H := destruct (four _ H) as [ -> | [ -> | [ -> | -> ] ] ].

Lemma lane_mkV f l : 0 <= l < 4 -> lane (mkV f) l = f l.
Proof. intros H; by4 H; reflexivity. Qed.
Lemma lane_XOR a b l : 0 <= l < 4 -> lane (XOR256 a b) l = xor64 (lane a l) (lane b l).
Proof. intros; unfold XOR256; now rewrite lane_mkV. Qed.
Lemma lane_ANDnu a b l : 0 <= l < 4 -> lane (ANDnu256 a b) l = and64 (not64 (lane a l)) (lane b l).
Proof. intros; unfold ANDnu256; now rewrite lane_mkV. Qed.
Lemma lane_CONST c l : 0 <= l < 4 -> lane (CONST256_64 c) l = c.
Proof. intros; unfold CONST256_64; now rewrite lane_mkV. Qed.

Lemma lor_lxor_disjoint a b : Z.land a b = 0 -> Z.lor a b = Z.lxor a b.
Proof.
  intros H; apply Z.bits_inj'; intros n Hn; rewrite Z.lor_spec, Z.lxor_spec.
  assert (E : Z.testbit (Z.land a b) n = false) by (rewrite H; apply Z.testbit_0_l).
  rewrite Z.land_spec in E. destruct (Z.testbit a n), (Z.testbit b n); auto; discriminate.
Qed.
Lemma ROL_disjoint a n : 0 <= a < M64 -> 0 < n < 64 ->
  Z.land (u64 (Z.shiftl a n)) (Z.shiftr a (64 - n)) = 0.
Proof.
  intros Ha Hn; apply Z.bits_inj'; intros z Hz; rewrite Z.land_spec, Z.testbit_0_l.
  rewrite Z.shiftr_spec by lia.
  destruct (Z.ltb_spec z n).
  - unfold u64; change 18446744073709551616 with (2 ^ 64).
    rewrite Z.mod_pow2_bits_low, Z.shiftl_spec_low by lia; reflexivity.
  - rewrite (testbit_high 64 a (z + (64 - n))) by (rewrite <- ?M64_pow; lia). apply andb_false_r.
Qed.
Lemma lane_ROL a n l : 0 <= l < 4 -> 0 <= lane a l < M64 -> 0 < n < 64 ->
  lane (ROL64in256 a n) l = ROL (lane a l) n.
Proof.
  intros Hl Ha Hn; unfold ROL64in256, mm256_or, mm256_slli_epi64, mm256_srli_epi64.
  rewrite !lane_mkV by auto. apply lor_lxor_disjoint. now apply ROL_disjoint.
Qed.

Lemma ROL_sum a n : 0 <= a < M64 -> 0 < n < 64 ->
  ROL a n = (a * 2 ^ n) mod 2 ^ 64 + a / 2 ^ (64 - n).
Proof.
  intros Ha Hn; unfold ROL. rewrite <- Z.add_nocarry_lxor by (now apply ROL_disjoint).
  rewrite Z.shiftl_mul_pow2, Z.shiftr_div_pow2 by lia. reflexivity.
Qed.
(** The eight bytes of a 64-bit value. *)
Definition by8 (x t : Z) : Z := (x / 2 ^ (8 * t)) mod 256.
Lemma bytes8 x : 0 <= x < M64 -> exists q1 q2 q3 q4 q5 q6 q7,
  by8 x 0 = x - 256 * q1 /\ by8 x 1 = q1 - 256 * q2 /\ by8 x 2 = q2 - 256 * q3 /\
  by8 x 3 = q3 - 256 * q4 /\ by8 x 4 = q4 - 256 * q5 /\ by8 x 5 = q5 - 256 * q6 /\
  by8 x 6 = q6 - 256 * q7 /\ by8 x 7 = q7 /\ q7 = x / 2 ^ 56 /\ q1 = x / 2 ^ 8.
Proof.
  intros Hx.
  assert (E : forall t, 0 <= t -> by8 x t = x / 2 ^ (8 * t) - 256 * (x / 2 ^ (8 * (t + 1)))).
  { intros t Ht; unfold by8. replace (8 * (t + 1)) with (8 * t + 8) by lia.
    pose proof (Z.pow_pos_nonneg 2 (8 * t) ltac:(lia) ltac:(lia)).
    rewrite Z.pow_add_r, <- Z.div_div by lia. change (2 ^ 8) with 256. apply Z.mod_eq; lia. }
  exists (x / 2 ^ 8), (x / 2 ^ 16), (x / 2 ^ 24), (x / 2 ^ 32), (x / 2 ^ 40), (x / 2 ^ 48), (x / 2 ^ 56).
  rewrite !E by lia. repeat split; try reflexivity.
  - now rewrite Z.div_1_r.
  - change (8 * (7 + 1)) with 64. change (8 * 7) with 56. rewrite (Z.div_small x (2 ^ 64)) by (rewrite <- M64_pow; exact Hx). lia.
Qed.
Lemma vbyte_by8 a k : vbyte a k = by8 (lane a (k / 8)) (k mod 8). Proof. reflexivity. Qed.
Lemma ROL8_bytes x : 0 <= x < M64 ->
  by8 x 7 + by8 x 0 * 2 ^ 8 + by8 x 1 * 2 ^ 16 + by8 x 2 * 2 ^ 24 + by8 x 3 * 2 ^ 32 +
  by8 x 4 * 2 ^ 40 + by8 x 5 * 2 ^ 48 + by8 x 6 * 2 ^ 56 = ROL x 8.
Proof.
  intros Hx; rewrite ROL_sum by lia.
  destruct (bytes8 x Hx) as (q1 & q2 & q3 & q4 & q5 & q6 & q7 & -> & -> & -> & -> & -> & -> & -> & -> & H7 & _).
  change (64 - 8) with 56. rewrite <- H7.
  assert (E : (x * 2 ^ 8) mod 2 ^ 64 = (x - 2 ^ 56 * q7) * 2 ^ 8).
  { replace (x * 2 ^ 8) with ((x - 2 ^ 56 * q7) * 2 ^ 8 + q7 * 2 ^ 64) by lia.
    rewrite Z.mod_add by lia. apply Z.mod_small.
    pose proof (Z.div_mod x (2 ^ 56) ltac:(lia)). pose proof (Z.mod_pos_bound x (2 ^ 56) ltac:(lia)). lia. }
  rewrite E; lia.
Qed.
Lemma ROL56_bytes x : 0 <= x < M64 ->
  by8 x 1 + by8 x 2 * 2 ^ 8 + by8 x 3 * 2 ^ 16 + by8 x 4 * 2 ^ 24 + by8 x 5 * 2 ^ 32 +
  by8 x 6 * 2 ^ 40 + by8 x 7 * 2 ^ 48 + by8 x 0 * 2 ^ 56 = ROL x 56.
Proof.
  intros Hx; rewrite ROL_sum by lia.
  destruct (bytes8 x Hx) as (q1 & q2 & q3 & q4 & q5 & q6 & q7 & -> & -> & -> & -> & -> & -> & -> & -> & _ & H1).
  change (64 - 56) with 8. rewrite <- H1.
  assert (E : (x * 2 ^ 56) mod 2 ^ 64 = (x - 2 ^ 8 * q1) * 2 ^ 56).
  { replace (x * 2 ^ 56) with ((x - 2 ^ 8 * q1) * 2 ^ 56 + q1 * 2 ^ 64) by lia.
    rewrite Z.mod_add by lia. apply Z.mod_small.
    pose proof (Z.div_mod x (2 ^ 8) ltac:(lia)). pose proof (Z.mod_pos_bound x (2 ^ 8) ltac:(lia)). lia. }
  rewrite E; lia.
Qed.
(** The two control words select the rotated byte. *)
Lemma rho_ctrl k : 0 <= k < 32 ->
  vbyte rho8 k < 128 /\ 16 * (k / 16) + vbyte rho8 k mod 16 = 8 * (k / 8) + (k + 7) mod 8 /\
  vbyte rho56 k < 128 /\ 16 * (k / 16) + vbyte rho56 k mod 16 = 8 * (k / 8) + (k + 1) mod 8.
Proof.
  intros Hk.
  pose (chk := fun n => let k := Z.of_nat n in
    (vbyte rho8 k <? 128) && (16 * (k / 16) + vbyte rho8 k mod 16 =? 8 * (k / 8) + (k + 7) mod 8) &&
    (vbyte rho56 k <? 128) && (16 * (k / 16) + vbyte rho56 k mod 16 =? 8 * (k / 8) + (k + 1) mod 8)).
  assert (H : forallb chk (seq 0 32) = true) by (vm_compute; reflexivity).
  rewrite forallb_forall in H. specialize (H (Z.to_nat k)).
  rewrite in_seq in H. specialize (H ltac:(lia)). unfold chk in H.
  rewrite Z2Nat.id in H by lia. cbv zeta in H.
  rewrite !andb_true_iff, !Z.eqb_eq, !Z.ltb_lt in H. tauto.
Qed.
Lemma vbyte_lane a l t : 0 <= t < 8 -> vbyte a (8 * l + t) = by8 (lane a l) t.
Proof.
  intros; unfold vbyte, by8.
  replace ((8 * l + t) / 8) with l by dlia. replace ((8 * l + t) mod 8) with t by dlia. reflexivity.
Qed.
Lemma lane_ROL8 a l : 0 <= l < 4 -> 0 <= lane a l < M64 -> lane (ROL64in256_8 a) l = ROL (lane a l) 8.
Proof.
  intros Hl Ha; rewrite <- ROL8_bytes by auto.
  unfold ROL64in256_8, mm256_shuffle_epi8; cbv zeta; rewrite lane_mkV by auto.
  assert (F : forall t, 0 <= t < 8 -> (if 128 <=? vbyte rho8 (8 * l + t) then 0
     else vbyte a (16 * ((8 * l + t) / 16) + vbyte rho8 (8 * l + t) mod 16)) = by8 (lane a l) ((t + 7) mod 8)).
  { intros t Ht; destruct (rho_ctrl (8 * l + t) ltac:(lia)) as (H1 & H2 & _).
    destruct (Z.leb_spec 128 (vbyte rho8 (8 * l + t))); [lia|]. rewrite H2.
    replace (8 * ((8 * l + t) / 8) + (8 * l + t + 7) mod 8) with (8 * l + (t + 7) mod 8) by dlia.
    apply vbyte_lane; dlia. }
  pose proof (F 0 ltac:(lia)) as F0; rewrite !Z.add_0_r in F0.
  rewrite F0, (F 1), (F 2), (F 3), (F 4), (F 5), (F 6), (F 7) by lia. reflexivity.
Qed.
Lemma lane_ROL56 a l : 0 <= l < 4 -> 0 <= lane a l < M64 -> lane (ROL64in256_56 a) l = ROL (lane a l) 56.
Proof.
  intros Hl Ha; rewrite <- ROL56_bytes by auto.
  unfold ROL64in256_56, mm256_shuffle_epi8; cbv zeta; rewrite lane_mkV by auto.
  assert (F : forall t, 0 <= t < 8 -> (if 128 <=? vbyte rho56 (8 * l + t) then 0
     else vbyte a (16 * ((8 * l + t) / 16) + vbyte rho56 (8 * l + t) mod 16)) = by8 (lane a l) ((t + 1) mod 8)).
  { intros t Ht; destruct (rho_ctrl (8 * l + t) ltac:(lia)) as (_ & _ & H1 & H2).
    destruct (Z.leb_spec 128 (vbyte rho56 (8 * l + t))); [lia|]. rewrite H2.
    replace (8 * ((8 * l + t) / 8) + (8 * l + t + 1) mod 8) with (8 * l + (t + 1) mod 8) by dlia.
    apply vbyte_lane; dlia. }
  pose proof (F 0 ltac:(lia)) as F0; rewrite !Z.add_0_r in F0.
  rewrite F0, (F 1), (F 2), (F 3), (F 4), (F 5), (F 6), (F 7) by lia. reflexivity.
Qed.

(* ================================================================== *)
(** * One round *)

(** Lane l of the 25 registers, and of Ca..Cu. *)
Definition vproj (l : Z) (st : vlanes) : list Z :=
  let '(a0, a1, a2, a3, a4, a5, a6, a7, a8, a9, a10, a11, a12, a13, a14, a15, a16, a17, a18, a19, a20, a21, a22, a23, a24) := st in
  map (fun v => lane v l) [a0; a1; a2; a3; a4; a5; a6; a7; a8; a9; a10; a11; a12; a13; a14; a15; a16; a17; a18; a19; a20; a21; a22; a23; a24].
Definition cproj (l : Z) (c : vcols) : list Z :=
  let '(a0, a1, a2, a3, a4) := c in map (fun v => lane v l) [a0; a1; a2; a3; a4].
Definition cols (s : list Z) : list Z := ztab 5 (lC (znth s)).

Lemma prepareTheta_cols l st : 0 <= l < 4 -> cproj l (prepareTheta st) = cols (vproj l st).
Proof.
  intros Hl. do 24 destruct st as [st ?]. unfold prepareTheta, cproj, vproj; cbn [map].
  rewrite !lane_XOR by auto.
  cbv -[Z.lxor lane]. do 5 (apply f_equal2; [rewrite !Z.lxor_assoc; reflexivity|]). reflexivity.
Qed.

Ltac vrng := match goal with
  | |- 0 <= lane (XOR256 _ _) _ < _ => rewrite lane_XOR by assumption; apply xor64_range; vrng
  | |- 0 <= lane (ROL64in256 _ _) _ < _ => rewrite lane_ROL; [apply ROL_range; [vrng|lia]|assumption|vrng|lia]
  | |- _ => assumption
  end.
Ltac vlane Hl :=
  repeat first
    [ rewrite !lane_XOR by exact Hl | rewrite !lane_ANDnu by exact Hl | rewrite !lane_CONST by exact Hl
    | rewrite lane_ROL by first [exact Hl|lia|vrng]
    | rewrite lane_ROL8 by first [exact Hl|lia|vrng] | rewrite lane_ROL56 by first [exact Hl|lia|vrng]].

(** Splitting the hypotheses about one lane. *)
Ltac open_lane st c Hok Hc :=
  do 24 destruct st as [st ?]; do 4 destruct c as [c ?];
  cbv [vproj map] in Hok; unfold u64s_ok, inrange in Hok; fold M64 in Hok;
  repeat match goal with H : Forall _ (_ :: _) |- _ => apply Forall_cons_iff in H; destruct H end;
  cbv -[lane xor64 Z.lt Z.le] in Hc; injection Hc; clear Hc; intros.

Lemma final_proj rc l st c : 0 <= l < 4 -> u64s_ok (vproj l st) -> cproj l c = cols (vproj l st) ->
  vproj l (thetaRhoPiChiIota rc st c) = lroundl rc (vproj l st).
Proof.
  intros Hl Hok Hc. open_lane st c Hok Hc.
  repeat match goal with E : lane ?x l = xor64 _ _ |- _ =>
    let R := fresh "R" in assert (R : 0 <= lane x l < M64) by (rewrite E; repeat apply xor64_range; assumption);
    revert E end; intros.
  unfold thetaRhoPiChiIota; cbv zeta; cbv [vproj map].
  vlane Hl.
  repeat match goal with E : lane ?x l = xor64 _ _ |- _ => rewrite E; clear E end.
  cbv -[xor64 and64 not64 ROL lane]; reflexivity.
Qed.

(** The preparing round computes the same E.., and the column parities of E... *)
Definition colsV (st : vlanes) : vcols :=
  let '(a0, a1, a2, a3, a4, a5, a6, a7, a8, a9, a10, a11, a12, a13, a14, a15, a16, a17, a18, a19, a20, a21, a22, a23, a24) := st in
  (XOR256 (XOR256 (XOR256 (XOR256 a0 a5) a10) a15) a20, XOR256 (XOR256 (XOR256 (XOR256 a1 a6) a11) a16) a21,
   XOR256 (XOR256 (XOR256 (XOR256 a2 a7) a12) a17) a22, XOR256 (XOR256 (XOR256 (XOR256 a3 a8) a13) a18) a23,
   XOR256 (XOR256 (XOR256 (XOR256 a4 a9) a14) a19) a24).
Lemma prep_final rc st c :
  thetaRhoPiChiIotaPrepareTheta rc st c = (thetaRhoPiChiIota rc st c, colsV (thetaRhoPiChiIota rc st c)).
Proof. do 24 destruct st as [st ?]; do 4 destruct c as [c ?]; reflexivity. Qed.
Lemma colsV_cols l st : 0 <= l < 4 -> cproj l (colsV st) = cols (vproj l st).
Proof.
  intros Hl. do 24 destruct st as [st ?]. unfold colsV, cproj, vproj; cbn [map].
  rewrite !lane_XOR by auto. reflexivity.
Qed.
Lemma zlen_vproj l st : zlen (vproj l st) = 25.
Proof. do 24 destruct st as [st ?]; reflexivity. Qed.
Local Opaque thetaRhoPiChiIota thetaRhoPiChiIotaPrepareTheta.

Lemma RC4 : KeccakF1600RoundConstants = KeccakF_RoundConstants. Proof. reflexivity. Qed.

(** After [n] rounds: every lane holds the scalar state after n rounds, and Ca..Cu its parities. *)
Definition rinv (st : vlanes) (n : Z) (st1 : vlanes) (c : vcols) : Prop :=
  forall l, 0 <= l < 4 -> vproj l st1 = fold_left lstep (zseq n) (vproj l st) /\ cproj l c = cols (vproj l st1).

Lemma rinv_final st n st1 c : (forall l, 0 <= l < 4 -> u64s_ok (vproj l st)) -> 0 <= n < 24 -> rinv st n st1 c ->
  forall l, 0 <= l < 4 -> vproj l (thetaRhoPiChiIota (znth KeccakF_RoundConstants n) st1 c) =
      fold_left lstep (zseq (n + 1)) (vproj l st).
Proof.
  intros Hok Hn H l Hl. destruct (H l Hl) as (H1 & H2).
  rewrite final_proj by (auto; rewrite H1; apply fold_lstep_ok; auto using zlen_vproj).
  rewrite H1. replace (zseq (n + 1)) with (zseq n ++ [n]).
  - rewrite fold_left_app; reflexivity.
  - unfold zseq. replace (Z.to_nat (n + 1)) with (Z.to_nat n + 1)%nat by lia.
    rewrite seq_app, map_app; cbn [seq map]; do 2 f_equal; lia.
Qed.
Lemma rstep_wp {A} st n st1 c (K : vlanes -> vcols -> res A) Q :
  (forall l, 0 <= l < 4 -> u64s_ok (vproj l st)) -> 0 <= n < 24 -> rinv st n st1 c ->
  (forall st2 c2, rinv st (n + 1) st2 c2 -> wp (K st2 c2) Q) ->
  wp (rc <- rd KeccakF_RoundConstants n ;;
      let '(s, c) := thetaRhoPiChiIotaPrepareTheta rc st1 c in K s c) Q.
Proof.
  intros Hok Hn H HK.
  apply wp_bind, wp_rd; [change (zlen KeccakF_RoundConstants) with 24; lia|apply RC_range|].
  rewrite prep_final. apply HK. intros l Hl; split; [now apply rinv_final|now apply colsV_cols].
Qed.
Lemma rounds24_wp st : (forall l, 0 <= l < 4 -> u64s_ok (vproj l st)) ->
  wp (rounds24 st) (fun st' => forall l, 0 <= l < 4 -> vproj l st' = lperm (vproj l st)).
Proof.
  intros Hok; unfold rounds24; rewrite RC4.
  assert (H : rinv st 0 st (prepareTheta st)) by (intros l Hl; split; [reflexivity|now apply prepareTheta_cols]).
  revert H; generalize (prepareTheta st) as c. generalize st at 2 3 as st1. intros st1 c H.
  do 23 (eapply rstep_wp; [exact Hok|lia|exact H|]; clear st1 c H; intros st1 c H).
  apply wp_bind, wp_rd; [change (zlen KeccakF_RoundConstants) with 24; lia|apply RC_range|].
  apply wp_ret. intros l Hl. exact (rinv_final st 23 st1 c Hok ltac:(lia) H l Hl).
Qed.

(** Lane l of the state in memory. *)
Definition mproj (l : Z) (ss : list Z) : list Z := ztab 25 (fun i => znth ss (4 * i + l)).
Lemma zlen_mproj l ss : zlen (mproj l ss) = 25. Proof. apply zlen_ztab; lia. Qed.
Lemma znth_mproj l ss i : 0 <= i < 25 -> znth (mproj l ss) i = znth ss (4 * i + l).
Proof. intros; unfold mproj; now rewrite znth_ztab. Qed.
Lemma mproj_ok l ss : u64s_ok ss -> u64s_ok (mproj l ss).
Proof. intros H; apply inrange_ztab; intros; apply inrange_znth_all; auto; reflexivity. Qed.

Lemma load256_wp ss i (Q : V256 -> Prop) : zlen ss = 100 -> u64s_ok ss -> 0 <= i < 25 ->
  Q (znth ss (4 * i), znth ss (4 * i + 1), znth ss (4 * i + 2), znth ss (4 * i + 3)) -> wp (load256 ss i) Q.
Proof.
  intros Hs Hok Hi HQ; unfold load256.
  assert (forall j, 0 <= znth ss j) by (intros; apply (inrange_znth_all M64 ss j); auto; reflexivity).
  do 4 (apply wp_bind, wp_rd; [lia|auto|]). now apply wp_ret.
Qed.
Lemma store256_wp ss i v : zlen ss = 100 -> 0 <= i < 25 ->
  wp (store256 ss i v) (fun ss' => zlen ss' = 100 /\
     forall j l, 0 <= l < 4 -> znth ss' (4 * j + l) = if i =? j then lane v l else znth ss (4 * j + l)).
Proof.
  intros Hs Hi; unfold store256.
  do 3 (apply wp_bind, wp_wr; [rewrite ?zlen_zset; lia|]). apply wp_wr; [rewrite !zlen_zset; lia|].
  split; [now rewrite !zlen_zset|]. intros j l Hl.
  rewrite !znth_zset by (rewrite ?zlen_zset; lia).
  by4 Hl; destruct (Z.eqb_spec i j); subst;
    repeat match goal with |- context [?a =? ?b] => destruct (Z.eqb_spec a b); try lia end; reflexivity.
Qed.

Lemma Permute4_wp ss : zlen ss = 100 -> u64s_ok ss ->
  wp (KeccakP1600times4_PermuteAll_24rounds true ss) (fun ss' => zlen ss' = 100 /\
     forall l, 0 <= l < 4 -> mproj l ss' = lperm (mproj l ss)).
Proof.
  intros Hs Hok; unfold KeccakP1600times4_PermuteAll_24rounds.
  apply wp_bind, wp_ret.
  do 25 (apply wp_bind, load256_wp; [assumption..|lia|]).
  match goal with |- wp (bind (rounds24 ?s) _) _ => set (st := s) end.
  assert (Hst : forall l, 0 <= l < 4 -> vproj l st = mproj l ss) by (intros l Hl; by4 Hl; reflexivity).
  apply wp_bind. eapply wp_mono; [apply rounds24_wp|].
  { intros l Hl; rewrite Hst by auto; now apply mproj_ok. }
  intros st' H'; cbv beta in H'.
  assert (Hm : forall l, 0 <= l < 4 -> vproj l st' = lperm (mproj l ss)) by (intros l Hl; rewrite H', Hst; auto).
  clear H' Hst st Hok. do 24 destruct st' as [st' ?].
  do 25 (apply wp_bind; eapply wp_mono; [apply store256_wp; [assumption|lia]|];
    let s1 := fresh "s" in let L := fresh "L" in let E := fresh "E" in
    intros s1 (L & E); clear Hs; rename L into Hs).
  apply wp_ret; split; [assumption|]. intros l Hl; rewrite <- Hm by auto.
  unfold mproj.
  erewrite ztab_ext by (intros i _; rewrite E23, E22, E21, E20, E19, E18, E17, E16, E15, E14, E13, E12, E11, E10, E9, E8, E7, E6, E5, E4, E3, E2, E1, E0, E by auto; reflexivity).
  reflexivity.
Qed.

(* ================================================================== *)
(** * Absorbing and squeezing, lane by lane *)

(** Component l of four buffers. *)
Definition sel4 {A} (q : A * A * A * A) (l : Z) : A :=
  let '(a, b, c, d) := q in if l =? 0 then a else if l =? 1 then b else if l =? 2 then c else d.

Lemma xor_in_wp ss j m off : zlen ss = 100 -> u64s_ok ss -> 0 <= j < 100 ->
  0 <= off -> off + 8 <= zlen m -> byte_in m off 8 ->
  wp (xor_in ss j m off) (fun ss' => exists y, ss' = zset ss j (xor64 (znth ss j) y) /\ 0 <= y < M64 /\
    forall z, 0 <= z < 64 -> Z.testbit y z = Z.testbit (znth m (off + z / 8)) (z mod 8)).
Proof.
  intros Hs Hok Hj Ho Hm Hb; unfold xor_in.
  assert (0 <= znth ss j < M64) by (apply (inrange_znth_all M64); auto; reflexivity).
  apply wp_bind, wp_rd; [lia|lia|].
  apply wp_bind. eapply wp_mono; [apply load64_wp; auto|].
  intros y (Hy & Hz); apply wp_wr; [lia|]. exists y; auto.
Qed.

Definition xor4_loop (r : Z) (n0 n1 n2 n3 : list Z) (off : Z) := for_ 0 (r / 8) (fun i ss =>
       ss <- xor_in ss (4 * i) n0 (off + 8 * i) ;;
       ss <- xor_in ss (4 * i + 1) n1 (off + 8 * i) ;;
       ss <- xor_in ss (4 * i + 2) n2 (off + 8 * i) ;;
       xor_in ss (4 * i + 3) n3 (off + 8 * i)).

Lemma xor4_wp ss r w n0 n1 n2 n3 off : zlen ss = 100 -> u64s_ok ss -> r = 8 * w -> 0 <= w <= 25 -> 0 <= off ->
  (forall l, 0 <= l < 4 -> off + r <= zlen (sel4 (n0, n1, n2, n3) l) /\ byte_in (sel4 (n0, n1, n2, n3) l) off r) ->
  wp (xor4_loop r n0 n1 n2 n3 off ss) (fun ss' => zlen ss' = 100 /\ u64s_ok ss' /\
    forall l, 0 <= l < 4 -> lanes_bits (mproj l ss') =
      xorl (lanes_bits (mproj l ss)) (padstate r (bytes_to_bits (zslice (sel4 (n0, n1, n2, n3) l) off r)))).
Proof.
  intros Hs Hok -> Hw Ho Hn; unfold xor4_loop.
  replace (8 * w / 8) with w by dlia.
  pose proof (Hn 0 ltac:(lia)) as (L0 & B0). pose proof (Hn 1 ltac:(lia)) as (L1 & B1).
  pose proof (Hn 2 ltac:(lia)) as (L2 & B2). pose proof (Hn 3 ltac:(lia)) as (L3 & B3).
  cbn [sel4 Z.eqb Pos.eqb] in L0, L1, L2, L3, B0, B1, B2, B3.
  set (N := sel4 (n0, n1, n2, n3)) in *.
  eapply wp_for with (I := fun i ss' => zlen ss' = 100 /\ u64s_ok ss' /\
    forall l k, 0 <= l < 4 -> 0 <= k < 1600 -> Z.testbit (znth ss' (4 * (k / 64) + l)) (k mod 64) =
      xorb (Z.testbit (znth ss (4 * (k / 64) + l)) (k mod 64))
           (if k <? 64 * i then Z.testbit (znth (N l) (off + k / 8)) (k mod 8) else false)).
  - lia.
  - split; [|split]; auto; intros l k Hl Hk; destruct (Z.ltb_spec k (64 * 0)); [lia|]; now rewrite xorb_false_r.
  - intros i s0 Hi (Hs0 & Hok0 & Hk0).
    apply wp_bind; eapply wp_mono; [apply xor_in_wp; auto; try lia; intros j Hj; apply B0; lia|].
    intros s1 (y0 & E1 & Hy0 & Hz0).
    assert (R : forall ss j, u64s_ok ss -> 0 <= znth ss j < M64) by (intros; apply (inrange_znth_all M64); auto; reflexivity).
    assert (Hs1 : zlen s1 = 100) by (rewrite E1, zlen_zset; auto).
    assert (Hok1 : u64s_ok s1) by (rewrite E1; apply inrange_zset; auto; apply xor64_range; auto).
    apply wp_bind; eapply wp_mono; [apply xor_in_wp; auto; try lia; intros j Hj; apply B1; lia|].
    intros s2 (y1 & E2 & Hy1 & Hz1).
    assert (Hs2 : zlen s2 = 100) by (rewrite E2, zlen_zset; auto).
    assert (Hok2 : u64s_ok s2) by (rewrite E2; apply inrange_zset; auto; apply xor64_range; auto).
    apply wp_bind; eapply wp_mono; [apply xor_in_wp; auto; try lia; intros j Hj; apply B2; lia|].
    intros s3 (y2 & E3 & Hy2 & Hz2).
    assert (Hs3 : zlen s3 = 100) by (rewrite E3, zlen_zset; auto).
    assert (Hok3 : u64s_ok s3) by (rewrite E3; apply inrange_zset; auto; apply xor64_range; auto).
    eapply wp_mono; [apply xor_in_wp; auto; try lia; intros j Hj; apply B3; lia|].
    intros s4 (y3 & E4 & Hy3 & Hz3).
    assert (Hs4 : zlen s4 = 100) by (rewrite E4, zlen_zset; auto).
    assert (Hok4 : u64s_ok s4) by (rewrite E4; apply inrange_zset; auto; apply xor64_range; auto).
    split; [auto|split; auto].
    assert (Y : forall l j, 0 <= l < 4 -> znth s4 (4 * j + l) =
      if i =? j then xor64 (znth s0 (4 * j + l)) (sel4 (y0, y1, y2, y3) l) else znth s0 (4 * j + l)).
    { intros l j Hl. rewrite E4, E3, E2, E1, !znth_zset by (rewrite ?zlen_zset; lia).
      by4 Hl; destruct (Z.eqb_spec i j); subst;
      repeat match goal with |- context [?a =? ?b] => destruct (Z.eqb_spec a b); try lia end;
      cbn [sel4]; rewrite ?Z.add_0_r; reflexivity. }
    assert (Hy : forall l z, 0 <= l < 4 -> 0 <= z < 64 ->
      Z.testbit (sel4 (y0, y1, y2, y3) l) z = Z.testbit (znth (N l) (off + 8 * i + z / 8)) (z mod 8)).
    { intros l z Hl Hz; by4 Hl; cbn [sel4 Z.eqb Pos.eqb N]; auto. }
    intros l k Hl Hkk; rewrite Y by auto. specialize (Hk0 l k Hl Hkk).
    destruct (Z.eqb_spec i (k / 64)) as [E|E].
    + subst i; unfold xor64; rewrite Z.lxor_spec, Hk0.
      destruct (Z.ltb_spec k (64 * (k / 64))); [exfalso; dlia|].
      destruct (Z.ltb_spec k (64 * (k / 64 + 1))); [|exfalso; dlia].
      rewrite xorb_false_r; f_equal.
      rewrite Hy by (auto; apply Z.mod_pos_bound; lia).
      f_equal; [f_equal; dlia|dlia].
    + rewrite Hk0; f_equal.
      destruct (Z.ltb_spec k (64 * i)); destruct (Z.ltb_spec k (64 * (i + 1))); auto; exfalso; dlia.
  - intros s' (Hs' & Hok' & Hk); split; [|split]; auto. intros l Hl.
    destruct (Hn l Hl) as (Ln & Bn).
    assert (HL : zlen (padstate (8 * w) (bytes_to_bits (zslice (N l) off (8 * w)))) = 1600).
    { unfold padstate; rewrite zlen_app, zlen_zrep, zlen_bytes_to_bits, zlen_zslice; lia. }
    apply blist_ext; rewrite ?zlen_xorl, ?zlen_lanes_bits, ?HL; [reflexivity|].
    intros k Hkk; rewrite bnth_xorl by (rewrite ?zlen_lanes_bits; lia).
    unfold lanes_bits; rewrite !bnth_ztab by lia; rewrite !znth_mproj by dlia; rewrite Hk by lia; f_equal.
    unfold padstate; rewrite bnth_app by lia.
    rewrite zlen_bytes_to_bits, zlen_zslice by lia.
    destruct (Z.ltb_spec k (64 * w)); destruct (Z.ltb_spec k (8 * (8 * w))); try lia.
    + rewrite bnth_bytes_to_bits by (rewrite zlen_zslice; lia).
      rewrite znth_zslice by dlia; reflexivity.
    + now rewrite bnth_zrep.
Qed.

(** The last, padded block of one lane (src/sha3/fips202x4.c:66-90). *)
Lemma tail_block r M nf rem t : 1 <= r <= 200 -> zlen M = nf * r + rem -> 0 <= rem < r -> 0 <= nf -> zlen t = 200 ->
  (forall j, 0 <= j < r -> znth t j = if j <? rem then znth M (nf * r + j) else 0) ->
  let t2 := zset (zset t rem 31) (r - 1) (u8 (Z.lor (znth (zset t rem 31) (r - 1)) 128)) in
  zlen t2 = 200 /\ 0 <= znth (zset t rem 31) (r - 1) /\
  zslice t2 0 r = zslice (padded r M) (nf * r) r.
Proof.
  intros Hr HM Hrem Hnf Ht1 Ht1z t2.
  assert (Erem : zlen M mod r = rem) by (symmetry; apply Z.mod_unique with (q := nf); lia).
  assert (Hr1 : znth (zset t rem 31) (r - 1) = if rem =? r - 1 then 31 else 0).
  { rewrite znth_zset by lia. destruct (Z.eqb_spec rem (r - 1)); auto.
    rewrite Ht1z by lia. destruct (Z.ltb_spec (r - 1) rem); [lia|reflexivity]. }
  unfold t2; rewrite Hr1.
  split; [now rewrite !zlen_zset|split; [destruct (rem =? r - 1); lia|]].
  assert (HPL : zlen (padded r M) = (nf + 1) * r).
  { unfold padded; rewrite zlen_app, zlen_padb by lia. lia. }
  apply list_ext; [rewrite !zlen_zslice; rewrite ?zlen_zset; nia|].
  rewrite zlen_zslice by (rewrite ?zlen_zset; lia); intros i Hi; rewrite !znth_zslice by (rewrite ?zlen_zset; nia).
  rewrite Z.add_0_l; rewrite znth_zset by (rewrite zlen_zset; lia).
  rewrite znth_zset, Ht1z by lia.
  unfold padded; rewrite znth_app, Erem.
  destruct (Z.ltb_spec (nf * r + i) (zlen M)).
  - destruct (Z.eqb_spec (r - 1) i); [lia|]; destruct (Z.eqb_spec rem i); [lia|].
    destruct (Z.ltb_spec i rem); [auto|lia].
  - replace (nf * r + i - zlen M) with (i - rem) by lia.
    unfold padb; destruct (Z.eqb_spec (r - rem) 1).
    + destruct (Z.eqb_spec (r - 1) i); [|lia]. destruct (Z.eqb_spec rem (r - 1)); [|lia].
      replace (i - rem) with 0 by lia; reflexivity.
    + destruct (Z.eqb_spec rem (r - 1)); [lia|].
      destruct (Z.eqb_spec (r - 1) i).
      * rewrite znth_consS, znth_app2 by (rewrite ?zlen_zrep; lia).
        rewrite zlen_zrep by lia. replace (i - rem - 1 - (r - rem - 2)) with 0 by lia. reflexivity.
      * destruct (Z.eqb_spec rem i).
        -- replace (i - rem) with 0 by lia; reflexivity.
        -- rewrite znth_consS by lia. rewrite znth_app1 by (rewrite zlen_zrep; lia).
           rewrite znth_zrep0. destruct (Z.ltb_spec i rem); [lia|reflexivity].
Qed.
Lemma padded_ok r M : 1 <= r -> bytes_ok M -> bytes_ok (padded r M).
Proof.
  intros Hr H; apply inrange_app; auto. unfold padb; destruct (_ =? 1); [constructor; [lia|constructor]|].
  constructor; [lia|]. apply inrange_app; [apply inrange_zrep0; lia|constructor; [lia|constructor]].
Qed.

Lemma mproj_all_ok ss : zlen ss = 100 -> (forall l, 0 <= l < 4 -> u64s_ok (mproj l ss)) -> u64s_ok ss.
Proof.
  intros Hs H. apply inrange_intro; intros j Hj.
  replace j with (4 * (j / 4) + j mod 4) by dlia.
  rewrite <- znth_mproj by dlia. apply (inrange_znth_all M64); [reflexivity|apply H; dlia].
Qed.
Lemma Permute4_ok_wp ss : zlen ss = 100 -> u64s_ok ss ->
  wp (KeccakP1600times4_PermuteAll_24rounds true ss) (fun ss' => zlen ss' = 100 /\ u64s_ok ss' /\
     forall l, 0 <= l < 4 -> mproj l ss' = lperm (mproj l ss)).
Proof.
  intros Hs Hok; eapply wp_mono; [now apply Permute4_wp|]. intros ss' (Hs' & H); split; [auto|split; auto].
  apply mproj_all_ok; auto. intros l Hl; rewrite H by auto.
  apply lperm_ok; [now apply mproj_ok|apply zlen_mproj].
Qed.

Lemma absorb4x_wp ss r w m0 m1 m2 m3 mlen :
  r = 8 * w -> 1 <= w <= 25 -> zlen ss = 100 -> (forall j, znth ss j = 0) -> 0 <= mlen ->
  (forall l, 0 <= l < 4 -> zlen (sel4 (m0, m1, m2, m3) l) = mlen /\ bytes_ok (sel4 (m0, m1, m2, m3) l)) ->
  wp (keccak_absorb4x true ss r m0 m1 m2 m3 mlen 31) (fun ss' => zlen ss' = 100 /\ u64s_ok ss' /\
     forall l, 0 <= l < 4 -> keccak_f (lanes_bits (mproj l ss')) = shake_state r (sel4 (m0, m1, m2, m3) l)).
Proof.
  intros Hr Hw Hss0 Hz0 Hm0 HM; unfold keccak_absorb4x; cbv zeta.
  set (MM := sel4 (m0, m1, m2, m3)) in *.
  pose proof (HM 0 ltac:(lia)) as (L0 & B0). pose proof (HM 1 ltac:(lia)) as (L1 & B1).
  pose proof (HM 2 ltac:(lia)) as (L2 & B2). pose proof (HM 3 ltac:(lia)) as (L3 & B3).
  change (MM 0) with m0 in L0, B0. change (MM 1) with m1 in L1, B1.
  change (MM 2) with m2 in L2, B2. change (MM 3) with m3 in L3, B3.
  set (nf := mlen / r).
  assert (Hnf : mlen = nf * r + mlen mod r) by (unfold nf; rewrite (Z.div_mod mlen r) at 1; lia).
  pose proof (Z.mod_pos_bound mlen r ltac:(lia)) as Hrem.
  assert (Hnf0 : 0 <= nf) by (unfold nf; apply Z.div_pos; lia).
  assert (HPL : forall l, 0 <= l < 4 -> zlen (padded r (MM l)) = (nf + 1) * r).
  { intros l Hl; rewrite zlen_padded by lia. destruct (HM l Hl) as (-> & _). reflexivity. }
  apply wp_bind.
  eapply wp_loop with (mu := fun '(_, mlen, _) => Z.to_nat (mlen / r))
    (I := fun '(s, ml, moff) => exists n, 0 <= n <= nf /\ moff = n * r /\ ml = mlen - n * r /\
       zlen s = 100 /\ u64s_ok s /\ forall l, 0 <= l < 4 -> lanes_bits (mproj l s) = absorbed n r (padded r (MM l))).
  - exists 0; split; [lia|]. split; [lia|split; [lia|split; [auto|split]]].
    + apply inrange_intro; intros; rewrite Hz0; lia.
    + intros l Hl. unfold absorbed; cbn [Z.to_nat absorb]. apply blist_ext; [rewrite zlen_lanes_bits; reflexivity|].
      rewrite zlen_lanes_bits; intros k Hk; unfold lanes_bits; rewrite bnth_ztab by lia.
      rewrite znth_mproj by dlia. now rewrite Hz0, bnth_zrep, Z.testbit_0_l.
  - fold nf. lia.
  - intros ((s, ml), moff) (n & Hn & -> & -> & Hs & Hok & Hbits).
    apply wp_branch; intros Hc.
    + apply Z.leb_le in Hc.
      assert (Hn1 : n + 1 <= nf) by nia.
      apply wp_bind. eapply wp_mono; [apply xor4_wp with (w := w); auto; try nia|].
      { intros l Hl; fold MM; destruct (HM l Hl) as (El & Bl); split; [lia|now apply bytes_ok_byte_in]. }
      intros s1 (Hs1 & Hok1 & Hb1).
      apply wp_bind. eapply wp_mono; [apply Permute4_ok_wp; auto|].
      intros s2 (Hs2 & Hok2 & Hp2); apply wp_ret; cbn [fst snd].
      split.
      * exists (n + 1); split; [lia|split; [lia|split; [lia|split; [auto|split; auto]]]].
        intros l Hl. rewrite Hp2 by auto.
        rewrite <- keccak_f_lanes by (auto using mproj_ok, zlen_mproj).
        pose proof (HPL l Hl).
        rewrite absorbed_succ by nia.
        rewrite Hb1, Hbits by auto; do 4 f_equal.
        destruct (HM l Hl) as (El & Bl).
        assert (0 <= n * r) by (apply Z.mul_nonneg_nonneg; lia).
        fold MM; unfold padded; symmetry; apply zslice_app_l; lia.
      * replace ((mlen - n * r) / r) with ((mlen - n * r - r) / r + 1)
          by (rewrite <- Z.div_add by lia; f_equal; lia).
        pose proof (Z.div_pos (mlen - n * r - r) r ltac:(lia) ltac:(lia)); lia.
    + apply Z.leb_gt in Hc. apply wp_ret; cbn [fst snd].
      assert (n = nf) by nia; subst n.
      set (rem := mlen mod r) in *.
      replace (mlen - nf * r) with rem by lia.
      apply wp_bind.
      eapply wp_for with (I := fun i q => forall l, 0 <= l < 4 -> zlen (sel4 q l) = 200 /\
          forall j, 0 <= j < i -> znth (sel4 q l) j = 0).
      { lia. } { intros l Hl; by4 Hl; cbn [sel4 Z.eqb Pos.eqb]; (split; [reflexivity|intros; lia]). }
      { intros i (((t0, t1), t2), t3) Hi H.
        pose proof (H 0 ltac:(lia)) as (T0 & _); pose proof (H 1 ltac:(lia)) as (T1 & _);
        pose proof (H 2 ltac:(lia)) as (T2 & _); pose proof (H 3 ltac:(lia)) as (T3 & _).
        cbn [sel4 Z.eqb Pos.eqb] in T0, T1, T2, T3.
        do 4 (apply wp_bind, wp_wr; [lia|]). apply wp_ret.
        intros l Hl; destruct (H l Hl) as (T & J).
        by4 Hl; cbn [sel4 Z.eqb Pos.eqb] in J |- *; (split; [now rewrite zlen_zset|]);
        intros j Hj; rewrite znth_zset by lia; (destruct (Z.eqb_spec i j); [auto|apply J; lia]). }
      intros (((t0, t1), t2), t3) HT. apply wp_bind.
      eapply wp_for with (I := fun i q => forall l, 0 <= l < 4 -> zlen (sel4 q l) = 200 /\
          forall j, 0 <= j < r -> znth (sel4 q l) j = if j <? i then znth (MM l) (nf * r + j) else 0).
      { lia. }
      { intros l Hl; destruct (HT l Hl) as (T & J); split; [auto|]. intros j Hj. destruct (Z.ltb_spec j 0); [lia|]. apply J; lia. }
      { clear HT; clear t0 t1 t2 t3; intros i (((t0, t1), t2), t3) Hi H.
        pose proof (H 0 ltac:(lia)) as (T0 & _); pose proof (H 1 ltac:(lia)) as (T1 & _);
        pose proof (H 2 ltac:(lia)) as (T2 & _); pose proof (H 3 ltac:(lia)) as (T3 & _).
        cbn [sel4 Z.eqb Pos.eqb] in T0, T1, T2, T3.
        do 4 (apply wp_bind, wp_rd; [lia|apply inrange_znth_all with (b := 256); auto; lia|];
              apply wp_bind, wp_wr; [lia|]). apply wp_ret.
        intros l Hl; destruct (H l Hl) as (T & J).
        by4 Hl; cbn [sel4 Z.eqb Pos.eqb] in T, J |- *; (split; [now rewrite zlen_zset|]);
        intros j Hj; rewrite znth_zset by lia; (destruct (Z.eqb_spec i j);
          [subst; destruct (Z.ltb_spec j (j + 1)); [reflexivity|lia]
          |rewrite J by lia; destruct (Z.ltb_spec j i); destruct (Z.ltb_spec j (i + 1)); auto; lia]). }
      clear HT; clear t0 t1 t2 t3; intros (((t0, t1), t2), t3) HT.
      assert (TB : forall l, 0 <= l < 4 -> let t := sel4 (t0, t1, t2, t3) l in
        let t2 := zset (zset t rem 31) (r - 1) (u8 (Z.lor (znth (zset t rem 31) (r - 1)) 128)) in
        zlen t = 200 /\ zlen t2 = 200 /\ 0 <= znth (zset t rem 31) (r - 1) /\
        zslice t2 0 r = zslice (padded r (MM l)) (nf * r) r).
      { intros l Hl; destruct (HT l Hl) as (T & J). destruct (HM l Hl) as (El & Bl).
        split; [exact T|]. apply tail_block; auto; lia. }
      pose proof (TB 0 ltac:(lia)) as (T0 & T0' & P0 & _); pose proof (TB 1 ltac:(lia)) as (T1 & T1' & P1 & _);
      pose proof (TB 2 ltac:(lia)) as (T2 & T2' & P2 & _); pose proof (TB 3 ltac:(lia)) as (T3 & T3' & P3 & _).
      cbn [sel4 Z.eqb Pos.eqb] in T0, T1, T2, T3, P0, P1, P2, P3.
      do 4 (apply wp_bind, wp_wr; [lia|]).
      do 4 (apply wp_bind, wp_rd; [rewrite zlen_zset; lia|assumption|]; apply wp_bind, wp_wr; [rewrite zlen_zset; lia|]).
      set (tl := fun t => zset (zset t rem 31) (r - 1) (u8 (Z.lor (znth (zset t rem 31) (r - 1)) 128))).
      match goal with |- wp _ ?Q => change (wp (xor4_loop r (tl t0) (tl t1) (tl t2) (tl t3) 0 s) Q) end.
      assert (HN : forall l, 0 <= l < 4 -> zlen (sel4 (tl t0, tl t1, tl t2, tl t3) l) = 200 /\
        zslice (sel4 (tl t0, tl t1, tl t2, tl t3) l) 0 r = zslice (padded r (MM l)) (nf * r) r).
      { intros l Hl; destruct (TB l Hl) as (_ & U1 & _ & U2).
        by4 Hl; cbn [sel4 Z.eqb Pos.eqb] in U1, U2 |- *; split; assumption. }
      eapply wp_mono; [apply xor4_wp with (w := w); auto; try lia|].
      { intros l Hl; destruct (HN l Hl) as (U1 & U2); split; [lia|].
        intros j Hj. replace j with (0 + j) by lia. rewrite <- (znth_zslice _ 0 r j) by lia.
        rewrite U2. apply inrange_znth_all; [lia|]. apply inrange_zslice, padded_ok; [lia|apply HM; auto]. }
      intros s1 (Hs1 & Hok1 & Hb1); split; [auto|split; auto].
      intros l Hl; destruct (HN l Hl) as (U1 & U2); destruct (HM l Hl) as (El & Bl).
      rewrite Hb1, U2, Hbits by auto. unfold shake_state; rewrite El; fold nf. symmetry; apply absorbed_succ; try lia.
      rewrite HPL; auto; lia.
Qed.

Definition sqinv (r : Z) (S : list bool) (h0 : list Z) (n : Z) (h : list Z) : Prop :=
  zlen h = zlen h0 /\ forall j, 0 <= j -> znth h j = if j <? n then xof_byte r S j else znth h0 j.

Lemma sq_store r w S k i s h0 h : r = 8 * w -> 1 <= w <= 25 -> 0 <= k -> 0 <= i < w ->
  zlen s = 25 -> u64s_ok s -> lanes_bits s = iter (Z.to_nat k) keccak_f S ->
  k * r + 8 * i + 8 <= zlen h0 -> sqinv r S h0 (k * r + 8 * i) h ->
  wp (store64 h (k * r + 8 * i) (znth s i)) (sqinv r S h0 (k * r + 8 * (i + 1))).
Proof.
  intros Hr Hw Hk Hi Hs Hok Hb Hl (Hh & Hj).
  assert (0 <= k * r) by (apply Z.mul_nonneg_nonneg; lia).
  assert (0 <= znth s i < M64) by (apply (inrange_znth_all M64); auto; reflexivity).
  eapply wp_mono; [apply store64_wp; lia|].
  intros h2 (Hh2 & Hj2); split; [lia|]; intros j Hjj; rewrite Hj2, Hj by lia.
  destruct (Z.leb_spec (k * r + 8 * i) j); destruct (Z.ltb_spec j (k * r + 8 * i + 8));
    destruct (Z.ltb_spec j (k * r + 8 * i)); destruct (Z.ltb_spec j (k * r + 8 * (i + 1)));
    cbn [andb]; auto; try lia.
  unfold xof_byte.
  assert (Ej : j / r = k) by (symmetry; apply Z.div_unique with (r := j - k * r); lia).
  assert (Em : j mod r = j - k * r) by (rewrite Z.mod_eq, Ej by lia; lia).
  rewrite Ej, Em, <- Hb, Kbyte_lanes by (auto; lia).
  replace ((j - k * r) / 8) with i by dlia. do 4 f_equal. dlia.
Qed.

Lemma squeeze4x_wp h n ss r w (S : Z -> list bool) : r = 8 * w -> 1 <= w <= 25 -> 0 <= n ->
  zlen ss = 100 -> u64s_ok ss ->
  (forall l, 0 <= l < 4 -> n * r <= zlen (sel4 h l) /\ keccak_f (lanes_bits (mproj l ss)) = S l) ->
  wp (keccak_squeezeblocks4x true h n ss r) (fun '(h', ss') =>
    zlen ss' = 100 /\ u64s_ok ss' /\
    forall l, 0 <= l < 4 -> sqinv r (S l) (sel4 h l) (n * r) (sel4 h' l) /\
       keccak_f (lanes_bits (mproj l ss')) = iter (Z.to_nat n) keccak_f (S l)).
Proof.
  intros Hr Hw Hn Hs Hok HS; unfold keccak_squeezeblocks4x; apply wp_bind.
  eapply wp_loop with (mu := fun '(_, _, nb, _) => Z.to_nat nb)
    (I := fun '(h', s', nb, hoff) => exists k, 0 <= k <= n /\ nb = n - k /\ hoff = k * r /\
      zlen s' = 100 /\ u64s_ok s' /\
      forall l, 0 <= l < 4 -> sqinv r (S l) (sel4 h l) (k * r) (sel4 h' l) /\
         keccak_f (lanes_bits (mproj l s')) = iter (Z.to_nat k) keccak_f (S l)).
  - exists 0; split; [lia|split; [lia|split; [lia|split; [auto|split; auto]]]].
    intros l Hl; destruct (HS l Hl) as (H1 & H2); split; [|exact H2].
    split; auto. intros j Hj; destruct (Z.ltb_spec j (0 * r)); [lia|reflexivity].
  - lia.
  - intros (((h', s'), nb), hoff) (k & Hk & -> & -> & Hs' & Hok' & HI).
    apply wp_branch; intros Hc; [apply Z.ltb_lt in Hc|apply Z.ltb_ge in Hc].
    + apply wp_bind. eapply wp_mono; [apply Permute4_ok_wp; auto|]; intros s1 (Hs1 & Hok1 & Hp1).
      assert (Hb1 : forall l, 0 <= l < 4 -> lanes_bits (mproj l s1) = iter (Z.to_nat k) keccak_f (S l)).
      { intros l Hl; destruct (HI l Hl) as (_ & E).
        rewrite Hp1, <- keccak_f_lanes by (auto using mproj_ok, zlen_mproj). exact E. }
      assert (Hkr : k * r + r <= n * r) by nia.
      assert (0 <= k * r) by (apply Z.mul_nonneg_nonneg; lia).
      apply wp_bind.
      rewrite Z.shiftr_div_pow2 by lia. replace (r / 2 ^ 3) with w by (change (2 ^ 3) with 8; dlia).
      eapply wp_for with (I := fun i h1 => forall l, 0 <= l < 4 -> sqinv r (S l) (sel4 h l) (k * r + 8 * i) (sel4 h1 l)).
      * lia.
      * intros l Hl; rewrite Z.mul_0_r, Z.add_0_r. now apply HI.
      * intros i (((h0, h1), h2), h3) Hi H1.
        assert (R : forall j, 0 <= znth s1 j) by (intros; apply (inrange_znth_all M64 s1 j); auto; reflexivity).
        assert (ST : forall l, 0 <= l < 4 -> wp (store64 (sel4 (h0, h1, h2, h3) l) (k * r + 8 * i) (znth s1 (4 * i + l)))
           (sqinv r (S l) (sel4 h l) (k * r + 8 * (i + 1)))).
        { intros l Hl. rewrite <- znth_mproj by lia. destruct (HS l Hl) as (Hlen & _).
          apply sq_store with (w := w); auto using zlen_mproj, mproj_ok; lia. }
        pose proof (ST 0 ltac:(lia)) as W0; pose proof (ST 1 ltac:(lia)) as W1;
        pose proof (ST 2 ltac:(lia)) as W2; pose proof (ST 3 ltac:(lia)) as W3.
        change (sel4 (h0, h1, h2, h3) 0) with h0 in W0; change (sel4 (h0, h1, h2, h3) 1) with h1 in W1;
        change (sel4 (h0, h1, h2, h3) 2) with h2 in W2; change (sel4 (h0, h1, h2, h3) 3) with h3 in W3.
        rewrite Z.add_0_r in W0.
        apply wp_bind, wp_rd; [lia|auto|]; apply wp_bind; eapply wp_mono; [exact W0|]; intros g0 G0.
        apply wp_bind, wp_rd; [lia|auto|]; apply wp_bind; eapply wp_mono; [exact W1|]; intros g1 G1.
        apply wp_bind, wp_rd; [lia|auto|]; apply wp_bind; eapply wp_mono; [exact W2|]; intros g2 G2.
        apply wp_bind, wp_rd; [lia|auto|]; apply wp_bind; eapply wp_mono; [exact W3|]; intros g3 G3.
        apply wp_ret; intros l Hl; by4 Hl; assumption.
      * intros h1 H1; apply wp_ret; cbn [fst snd]; split; [|lia].
        exists (k + 1); split; [lia|split; [lia|split; [lia|split; [auto|split; [auto|]]]]].
        intros l Hl; split.
        -- replace ((k + 1) * r) with (k * r + 8 * w) by lia. now apply H1.
        -- replace (Z.to_nat (k + 1)) with (Datatypes.S (Z.to_nat k)) by lia.
           now rewrite iter_succ, Hb1.
    + apply wp_ret; cbn [fst snd]. assert (k = n) by lia; subst k. apply wp_ret; auto.
Qed.

Lemma shake128_4x_wp out outlen i0 i1 i2 i3 inlen : 0 <= inlen -> 0 <= outlen ->
  (forall l, 0 <= l < 4 -> zlen (sel4 out l) = outlen /\
     zlen (sel4 (i0, i1, i2, i3) l) = inlen /\ bytes_ok (sel4 (i0, i1, i2, i3) l)) ->
  wp (shake128_4x true out outlen i0 i1 i2 i3 inlen)
     (fun o => o = (SHAKE128 i0 outlen, SHAKE128 i1 outlen, SHAKE128 i2 outlen, SHAKE128 i3 outlen)).
Proof.
  intros Hin Hout H; unfold shake128_4x; apply wp_bind.
  unfold shake128_absorb4x; apply wp_bind.
  eapply wp_for with (I := fun i ss => zlen ss = 100 /\ forall j, 0 <= j < 4 * i -> znth ss j = 0).
  { lia. } { split; [reflexivity|intros; lia]. }
  { intros i ss Hi (Hs & Hz). eapply wp_mono; [apply store256_wp; auto|].
    intros ss' (Hs' & Hj); split; [auto|]. intros j Hjj.
    replace j with (4 * (j / 4) + j mod 4) by dlia. rewrite Hj by dlia.
    destruct (Z.eqb_spec i (j / 4)).
    - unfold lane. repeat match goal with |- context [if ?c then _ else _] => destruct c end; reflexivity.
    - apply Hz. dlia. }
  intros ss (Hs & Hz).
  assert (Hz' : forall j, znth ss j = 0).
  { intros j. destruct (Z.ltb_spec j 0); [apply znth_neg; lia|].
    destruct (Z.ltb_spec j 100); [apply Hz; lia|apply znth_out; lia]. }
  eapply wp_mono; [apply (absorb4x_wp ss 168 21 i0 i1 i2 i3 inlen); auto; try lia; intros l Hl; apply H; auto|].
  intros s (Hs1 & Hok1 & Hf1).
  set (nb := outlen / 168).
  assert (Hnb : outlen = nb * 168 + outlen mod 168) by (unfold nb; rewrite (Z.div_mod outlen 168) at 1; lia).
  pose proof (Z.mod_pos_bound outlen 168 ltac:(lia)) as Hrem.
  assert (0 <= nb) by (unfold nb; apply Z.div_pos; lia).
  set (S := fun l => shake_state 168 (sel4 (i0, i1, i2, i3) l)).
  assert (HB : forall l, 0 <= l < 4 -> SHAKE128 (sel4 (i0, i1, i2, i3) l) outlen = ztab outlen (xof_byte 168 (S l))).
  { intros l Hl. rewrite SHAKE128_r, SHAKE_r_bytes by (try lia; apply H; auto). reflexivity. }
  assert (FIN : forall o, (forall l, 0 <= l < 4 -> zlen (sel4 o l) = outlen /\
      forall j, 0 <= j < outlen -> znth (sel4 o l) j = xof_byte 168 (S l) j) ->
      o = (SHAKE128 i0 outlen, SHAKE128 i1 outlen, SHAKE128 i2 outlen, SHAKE128 i3 outlen)).
  { intros (((o0, o1), o2), o3) Ho.
    assert (forall l, 0 <= l < 4 -> sel4 (o0, o1, o2, o3) l = SHAKE128 (sel4 (i0, i1, i2, i3) l) outlen).
    { intros l Hl; rewrite HB by auto; destruct (Ho l Hl) as (O1 & O2).
      apply list_ext; [rewrite zlen_ztab; lia|]. intros j Hj; rewrite znth_ztab by lia. apply O2; lia. }
    pose proof (H1 0 ltac:(lia)) as Q0; pose proof (H1 1 ltac:(lia)) as Q1;
    pose proof (H1 2 ltac:(lia)) as Q2; pose proof (H1 3 ltac:(lia)) as Q3.
    cbn [sel4 Z.eqb Pos.eqb] in Q0, Q1, Q2, Q3. now rewrite Q0, Q1, Q2, Q3. }
  apply wp_bind. eapply wp_mono; [apply (squeeze4x_wp out nb s 168 21 S); auto; try lia|].
  { intros l Hl; split; [destruct (H l Hl) as (E & _); rewrite E; lia|now apply Hf1]. }
  intros (out1, s1) (Hs2 & Hok2 & Hq).
  apply wp_branch; intros Hc.
  - apply wp_bind.
    eapply wp_mono; [apply (squeeze4x_wp (uninit 168, uninit 168, uninit 168, uninit 168) 1 s1 168 21
       (fun l => iter (Z.to_nat nb) keccak_f (S l))); auto; try lia|].
    { intros l Hl; split; [by4 Hl; reflexivity|now apply Hq]. }
    intros ((((t0, t1), t2), t3), s2) (_ & _ & Ht).
    assert (Hx : forall l i, 0 <= l < 4 -> 0 <= i < 168 ->
       znth (sel4 (t0, t1, t2, t3) l) i = xof_byte 168 (S l) (nb * 168 + i)).
    { intros l i Hl Hii; destruct (Ht l Hl) as ((_ & Tj) & _). rewrite Tj by lia.
      destruct (Z.ltb_spec i (1 * 168)); [|lia].
      unfold xof_byte. rewrite Z.div_small, Z.mod_small by lia.
      replace ((nb * 168 + i) / 168) with nb by (apply Z.div_unique with (r := i); lia).
      replace ((nb * 168 + i) mod 168) with i by (apply Z.mod_unique with (q := nb); lia).
      reflexivity. }
    assert (Htl : forall l, 0 <= l < 4 -> zlen (sel4 (t0, t1, t2, t3) l) = 168).
    { intros l Hl; destruct (Ht l Hl) as ((E & _) & _); rewrite E; by4 Hl; reflexivity. }
    pose proof (Htl 0 ltac:(lia)) as T0; pose proof (Htl 1 ltac:(lia)) as T1;
    pose proof (Htl 2 ltac:(lia)) as T2; pose proof (Htl 3 ltac:(lia)) as T3.
    cbn [sel4 Z.eqb Pos.eqb] in T0, T1, T2, T3.
    pose proof (fun i => Hx 0 i ltac:(lia)) as X0; pose proof (fun i => Hx 1 i ltac:(lia)) as X1;
    pose proof (fun i => Hx 2 i ltac:(lia)) as X2; pose proof (fun i => Hx 3 i ltac:(lia)) as X3.
    cbn [sel4 Z.eqb Pos.eqb] in X0, X1, X2, X3.
    eapply wp_for with (I := fun i o => forall l, 0 <= l < 4 -> zlen (sel4 o l) = outlen /\
      forall j, 0 <= j < nb * 168 + i -> znth (sel4 o l) j = xof_byte 168 (S l) j).
    + lia.
    + intros l Hl; destruct (Hq l Hl) as ((E & J) & _); destruct (H l Hl) as (E' & _); split; [lia|].
      intros j Hj; rewrite J by lia. destruct (Z.ltb_spec j (nb * 168)); [auto|lia].
    + intros i (((o0, o1), o2), o3) Hii HO.
      pose proof (HO 0 ltac:(lia)) as (O0 & _); pose proof (HO 1 ltac:(lia)) as (O1 & _);
      pose proof (HO 2 ltac:(lia)) as (O2 & _); pose proof (HO 3 ltac:(lia)) as (O3 & _).
      cbn [sel4 Z.eqb Pos.eqb] in O0, O1, O2, O3.
      apply wp_bind, wp_rd; [lia|rewrite X0 by lia; apply Kbyte_range|]; apply wp_bind, wp_wr; [lia|].
      apply wp_bind, wp_rd; [lia|rewrite X1 by lia; apply Kbyte_range|]; apply wp_bind, wp_wr; [lia|].
      apply wp_bind, wp_rd; [lia|rewrite X2 by lia; apply Kbyte_range|]; apply wp_bind, wp_wr; [lia|].
      apply wp_bind, wp_rd; [lia|rewrite X3 by lia; apply Kbyte_range|]; apply wp_bind, wp_wr; [lia|].
      apply wp_ret. intros l Hl; destruct (HO l Hl) as (_ & J).
      by4 Hl; cbn [sel4 Z.eqb Pos.eqb] in J |- *; (split; [now rewrite zlen_zset|]);
      intros j Hjj; rewrite znth_zset by lia; (destruct (Z.eqb_spec (nb * 168 + i) j);
        [subst j|apply J; lia]); [apply X0|apply X1|apply X2|apply X3]; lia.
    + intros o Ho. apply FIN. intros l Hl; destruct (Ho l Hl) as (E & J); split; [auto|]. intros; apply J; lia.
  - apply negb_false_iff, Z.eqb_eq in Hc. apply wp_ret. apply FIN.
    intros l Hl; destruct (Hq l Hl) as ((E & J) & _); destruct (H l Hl) as (E' & _); split; [lia|].
    intros j Hj; rewrite J by lia. destruct (Z.ltb_spec j (nb * 168)); [auto|lia].
Qed.

