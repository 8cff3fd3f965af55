(** src/sha3/fips202.c computes SHAKE as defined in FIPS 202. *)
From Verif Require Import CSem Params Fips202 KeccakSpec.

(* ================================================================== *)
(** * The permutation on 64-bit lanes *)

Definition lC (L : Z -> Z) (x : Z) : Z :=
  xor64 (xor64 (xor64 (xor64 (L (x + 5 * 0)) (L (x + 5 * 1))) (L (x + 5 * 2))) (L (x + 5 * 3))) (L (x + 5 * 4)).
Definition lD (L : Z -> Z) (x : Z) : Z :=
  xor64 (lC L ((x - 1) mod 5)) (ROL (lC L ((x + 1) mod 5)) 1).
Definition ltheta (L : Z -> Z) (x y : Z) : Z := xor64 (L (x + 5 * y)) (lD L x).
Definition lrot (v n : Z) : Z := if n =? 0 then v else ROL v n.
Definition lB (L : Z -> Z) (x y : Z) : Z :=
  lrot (ltheta L ((x + 3 * y) mod 5) x) (rho_off ((x + 3 * y) mod 5) x mod 64).
Definition lchi (L : Z -> Z) (x y : Z) : Z :=
  xor64 (lB L x y) (and64 (not64 (lB L ((x + 1) mod 5) y)) (lB L ((x + 2) mod 5) y)).
Definition lround (rc : Z) (L : Z -> Z) (i : Z) : Z :=
  if i =? 0 then xor64 (lchi L 0 0) rc else lchi L (i mod 5) (i / 5).

Definition tup (l : list Z) : lanes :=
  let a i := znth l i in
  (a 0, a 1, a 2, a 3, a 4, a 5, a 6, a 7, a 8, a 9, a 10, a 11, a 12, a 13, a 14, a 15, a 16, a 17,
   a 18, a 19, a 20, a 21, a 22, a 23, a 24).
Definition lroundl (rc : Z) (l : list Z) : list Z := ztab 25 (lround rc (znth l)).

Ltac explode l H :=
  let rec go n :=
    match n with
    | O => idtac
    | S ?n' => destruct l as [|?a l]; [exfalso; unfold zlen in H; cbn in H; lia|]; go n'
    end in
  go 25%nat; destruct l as [|?a l]; [clear H|exfalso; unfold zlen in H; cbn [length] in H; lia].

Lemma roundA_lround rc l : zlen l = 25 -> keccak_roundA rc (tup l) = tup (lroundl rc l).
Proof.
  intros H; explode l H.
  cbv -[xor64 and64 not64 ROL]. reflexivity.
Qed.
Lemma roundB_lround rc l : zlen l = 25 -> keccak_roundB rc (tup l) = tup (lroundl rc l).
Proof.
  intros H; explode l H.
  cbv -[xor64 and64 not64 ROL]. reflexivity.
Qed.

(* ================================================================== *)
(** * Lanes versus bits *)

Definition M64 : Z := 18446744073709551616.
Lemma M64_pow : M64 = 2 ^ 64. Proof. reflexivity. Qed.

Lemma pow2_range n v : 0 <= n -> (0 <= v < 2 ^ n <-> 0 <= v /\ Z.shiftr v n = 0).
Proof.
  intros Hn; rewrite Z.shiftr_div_pow2 by lia.
  pose proof (Z.pow_pos_nonneg 2 n ltac:(lia) Hn).
  split; intros (H0 & H1); split; auto.
  - apply Z.div_small; lia.
  - apply Z.div_small_iff in H1; lia.
Qed.
Lemma lxor_range n a b : 0 <= n -> 0 <= a < 2 ^ n -> 0 <= b < 2 ^ n -> 0 <= Z.lxor a b < 2 ^ n.
Proof.
  intros Hn; rewrite !pow2_range by lia; intros (A0 & A) (B0 & B); split.
  - apply Z.lxor_nonneg; tauto.
  - now rewrite Z.shiftr_lxor, A, B.
Qed.
Lemma lor_range n a b : 0 <= n -> 0 <= a < 2 ^ n -> 0 <= b < 2 ^ n -> 0 <= Z.lor a b < 2 ^ n.
Proof.
  intros Hn; rewrite !pow2_range by lia; intros (A0 & A) (B0 & B); split.
  - apply Z.lor_nonneg; tauto.
  - now rewrite Z.shiftr_lor, A, B.
Qed.
Lemma land_range n a b : 0 <= n -> 0 <= a < 2 ^ n -> 0 <= b < 2 ^ n -> 0 <= Z.land a b < 2 ^ n.
Proof.
  intros Hn; rewrite !pow2_range by lia; intros (A0 & A) (B0 & B); split.
  - apply Z.land_nonneg; tauto.
  - now rewrite Z.shiftr_land, A, B.
Qed.
Lemma testbit_high n v k : 0 <= n -> 0 <= v < 2 ^ n -> n <= k -> Z.testbit v k = false.
Proof.
  intros Hn Hv Hk. rewrite <- (Z.mod_small v (2 ^ n)) by lia.
  apply Z.mod_pow2_bits_high; lia.
Qed.

Lemma xor64_range a b : 0 <= a < M64 -> 0 <= b < M64 -> 0 <= xor64 a b < M64.
Proof. rewrite M64_pow; apply lxor_range; lia. Qed.
Lemma and64_range a b : 0 <= a < M64 -> 0 <= b < M64 -> 0 <= and64 a b < M64.
Proof. rewrite M64_pow; apply land_range; lia. Qed.
Lemma not64_range a : 0 <= a < M64 -> 0 <= not64 a < M64.
Proof. intros; apply xor64_range; unfold M64 in *; lia. Qed.
Lemma ROL_range a n : 0 <= a < M64 -> 0 <= n <= 64 -> 0 <= ROL a n < M64.
Proof.
  intros; apply xor64_range.
  - unfold u64, M64; apply Z.mod_pos_bound; lia.
  - rewrite Z.shiftr_div_pow2 by lia.
    pose proof (Z.pow_pos_nonneg 2 (64 - n) ltac:(lia) ltac:(lia)).
    split; [apply Z.div_pos; lia|]. apply Z.div_lt_upper_bound; [lia|]. unfold M64 in *; nia.
Qed.

Lemma testbit_not64 a z : 0 <= z < 64 -> Z.testbit (not64 a) z = xorb (Z.testbit a z) true.
Proof.
  intros; unfold not64; rewrite Z.lxor_spec; f_equal.
  change 18446744073709551615 with (Z.ones 64); apply Z.ones_spec_low; lia.
Qed.
Lemma testbit_ROL a n z : 0 <= a < M64 -> 0 <= n < 64 -> 0 <= z < 64 ->
  Z.testbit (ROL a n) z = Z.testbit a ((z - n) mod 64).
Proof.
  intros Ha Hn Hz; unfold ROL; rewrite Z.lxor_spec.
  unfold u64; change 18446744073709551616 with (2 ^ 64).
  rewrite Z.mod_pow2_bits_low by lia.
  rewrite Z.shiftr_spec by lia.
  destruct (Z.ltb_spec z n).
  - rewrite Z.shiftl_spec_low by lia.
    replace ((z - n) mod 64) with (z + (64 - n)) by (Z.div_mod_to_equations; lia).
    apply xorb_false_l.
  - rewrite Z.shiftl_spec by lia.
    rewrite (testbit_high 64 a (z + (64 - n))) by (rewrite <- ?M64_pow; lia).
    replace ((z - n) mod 64) with (z - n) by (Z.div_mod_to_equations; lia).
    apply xorb_false_r.
Qed.

Definition AL (L : Z -> Z) : sarray := fun x y z => Z.testbit (L (x + 5 * y)) z.

Section Bits.
  Variable L : Z -> Z.
  Hypothesis HL : forall i, 0 <= L i < M64.

  Lemma lC_range x : 0 <= lC L x < M64.
  Proof. unfold lC; repeat apply xor64_range; apply HL. Qed.
  Lemma lD_range x : 0 <= lD L x < M64.
  Proof. unfold lD; apply xor64_range; [apply lC_range|apply ROL_range; [apply lC_range|lia]]. Qed.
  Lemma ltheta_range x y : 0 <= ltheta L x y < M64.
  Proof. unfold ltheta; apply xor64_range; [apply HL|apply lD_range]. Qed.
  Lemma lrot_range v n : 0 <= v < M64 -> 0 <= n < 64 -> 0 <= lrot v n < M64.
  Proof. intros; unfold lrot; destruct (n =? 0); [assumption|apply ROL_range; lia]. Qed.
  Lemma lB_range x y : 0 <= lB L x y < M64.
  Proof. unfold lB; apply lrot_range; [apply ltheta_range|apply Z.mod_pos_bound; lia]. Qed.
  Lemma lchi_range x y : 0 <= lchi L x y < M64.
  Proof.
    unfold lchi; apply xor64_range; [apply lB_range|].
    apply and64_range; [apply not64_range|]; apply lB_range.
  Qed.
  Lemma lround_range rc i : 0 <= rc < M64 -> 0 <= lround rc L i < M64.
  Proof.
    intros; unfold lround; destruct (i =? 0); [apply xor64_range; auto; apply lchi_range|apply lchi_range].
  Qed.

  Lemma bit_C x z : Z.testbit (lC L x) z = thetaC (AL L) x z.
  Proof. unfold lC, thetaC, AL, xor64; now rewrite !Z.lxor_spec. Qed.
  Lemma bit_theta x y z : 0 <= z < 64 -> Z.testbit (ltheta L x y) z = theta (AL L) x y z.
  Proof.
    intros; unfold ltheta, theta, lD, thetaD, xor64; rewrite !Z.lxor_spec.
    rewrite testbit_ROL by (try lia; apply lC_range).
    now rewrite !bit_C.
  Qed.
  Lemma bit_B x y z : 0 <= z < 64 -> Z.testbit (lB L x y) z = pi_ (rho (theta (AL L))) x y z.
  Proof.
    intros; unfold lB, pi_, rho, lrot.
    set (o := rho_off ((x + 3 * y) mod 5) x).
    assert (0 <= o mod 64 < 64) by (apply Z.mod_pos_bound; lia).
    replace ((z - o) mod 64) with ((z - o mod 64) mod 64)
      by (rewrite Zminus_mod_idemp_r; reflexivity).
    destruct (Z.eqb_spec (o mod 64) 0) as [->|].
    - rewrite Z.sub_0_r, (Z.mod_small z) by lia; apply bit_theta; lia.
    - rewrite testbit_ROL by (try lia; apply ltheta_range).
      apply bit_theta; apply Z.mod_pos_bound; lia.
  Qed.
  Lemma bit_chi x y z : 0 <= z < 64 ->
    Z.testbit (lchi L x y) z = chi (pi_ (rho (theta (AL L)))) x y z.
  Proof.
    intros; unfold lchi, chi, xor64, and64; rewrite Z.lxor_spec, Z.land_spec.
    rewrite testbit_not64 by lia; now rewrite !bit_B by lia.
  Qed.
  Lemma bit_round ir rc x y z :
    0 <= x < 5 -> 0 <= y < 5 -> 0 <= z < 64 -> Z.testbit rc z = RCbit ir z ->
    Z.testbit (lround rc L (x + 5 * y)) z = Rnd (AL L) ir x y z.
  Proof.
    intros Hx Hy Hz Hrc; unfold lround, Rnd, iota_.
    destruct (Z.eqb_spec (x + 5 * y) 0).
    - assert (x = 0) by lia; assert (y = 0) by lia; subst; cbn [Z.eqb andb].
      unfold xor64; now rewrite Z.lxor_spec, bit_chi, Hrc by lia.
    - replace ((x =? 0) && (y =? 0)) with false
        by (destruct (Z.eqb_spec x 0); destruct (Z.eqb_spec y 0); auto; lia).
      replace ((x + 5 * y) mod 5) with x by (Z.div_mod_to_equations; lia).
      replace ((x + 5 * y) / 5) with y by (Z.div_mod_to_equations; lia).
      now apply bit_chi.
  Qed.
End Bits.

(** The 24 constants of the code are the LFSR-generated ones. *)
Lemma RC_bits ir z : 0 <= ir < 24 -> 0 <= z < 64 ->
  Z.testbit (znth KeccakF_RoundConstants ir) z = RCbit ir z.
Proof.
  assert (H : forallb (fun i => forallb (fun z =>
            Bool.eqb (Z.testbit (znth KeccakF_RoundConstants i) z) (RCbit i z)) (zseq 64)) (zseq 24) = true)
    by (vm_compute; reflexivity).
  intros Hi Hz; rewrite forallb_forall in H.
  assert (In_zseq : forall n i, 0 <= i < n -> In i (zseq n)).
  { intros n i Hin; rewrite <- (zseq_nth n i 0 Hin); apply nth_In.
    unfold zseq; rewrite map_length, seq_length; lia. }
  specialize (H ir (In_zseq _ _ Hi)); rewrite forallb_forall in H.
  specialize (H z (In_zseq _ _ Hz)); now apply Bool.eqb_prop in H.
Qed.
Lemma RC_range ir : 0 <= znth KeccakF_RoundConstants ir < M64.
Proof.
  apply inrange_znth_all; [unfold M64; lia|].
  unfold inrange, KeccakF_RoundConstants, M64; repeat constructor; lia.
Qed.

(** The permutation on a list of lanes. *)
Definition lstep (l : list Z) (ir : Z) : list Z := lroundl (znth KeccakF_RoundConstants ir) l.
Definition lperm (l : list Z) : list Z := fold_left lstep (zseq 24) l.

Lemma lroundl_ok rc l : 0 <= rc < M64 -> u64s_ok l -> u64s_ok (lroundl rc l).
Proof.
  intros Hrc Hl; apply inrange_ztab; intros; apply lround_range; auto.
  intros; apply inrange_znth_all; auto; lia.
Qed.
Lemma zlen_lroundl rc l : zlen (lroundl rc l) = 25.
Proof. unfold lroundl; rewrite zlen_ztab; lia. Qed.
Lemma fold_lstep_ok rs : forall l, u64s_ok l -> zlen l = 25 ->
  u64s_ok (fold_left lstep rs l) /\ zlen (fold_left lstep rs l) = 25.
Proof.
  induction rs as [|r rs IH]; intros l H1 H2; [auto|]; cbn [fold_left]; apply IH.
  - apply lroundl_ok; auto; apply RC_range.
  - apply zlen_lroundl.
Qed.
Lemma lperm_ok l : u64s_ok l -> zlen l = 25 -> u64s_ok (lperm l) /\ zlen (lperm l) = 25.
Proof. apply fold_lstep_ok. Qed.

(** Agreement of state arrays on the valid coordinates. *)
Definition aeq (A B : sarray) : Prop :=
  forall x y z, 0 <= x < 5 -> 0 <= y < 5 -> 0 <= z < 64 -> A x y z = B x y z.
Lemma mod5 a : 0 <= a mod 5 < 5. Proof. apply Z.mod_pos_bound; lia. Qed.
Lemma mod64 a : 0 <= a mod 64 < 64. Proof. apply Z.mod_pos_bound; lia. Qed.
Lemma theta_ext A B : aeq A B -> aeq (theta A) (theta B).
Proof.
  intros H x y z Hx Hy Hz; unfold theta, thetaD, thetaC.
  rewrite !H; auto using mod5, mod64; try lia.
Qed.
Lemma Rnd_ext A B ir : aeq A B -> aeq (Rnd A ir) (Rnd B ir).
Proof.
  intros H; apply theta_ext in H.
  assert (H1 : aeq (pi_ (rho (theta A))) (pi_ (rho (theta B)))).
  { intros x y z Hx Hy Hz; unfold pi_, rho; rewrite H; auto using mod5, mod64. }
  intros x y z Hx Hy Hz; unfold Rnd, iota_, chi; rewrite !H1 by auto using mod5; reflexivity.
Qed.
Lemma fold_Rnd_ext rs : forall A B, aeq A B -> aeq (fold_left Rnd rs A) (fold_left Rnd rs B).
Proof.
  induction rs as [|r rs IH]; intros A B H; [exact H|]; cbn [fold_left]; apply IH; now apply Rnd_ext.
Qed.

Lemma fold_lstep_bits rs : forall l, (forall r, In r rs -> 0 <= r < 24) ->
  u64s_ok l -> zlen l = 25 ->
  aeq (AL (znth (fold_left lstep rs l))) (fold_left Rnd rs (AL (znth l))).
Proof.
  induction rs as [|r rs IH]; intros l Hr H1 H2.
  - intros x y z _ _ _; reflexivity.
  - cbn [fold_left].
    assert (HR : 0 <= r < 24) by (apply Hr; now left).
    assert (Hl : forall i, 0 <= znth l i < M64) by (intros; apply inrange_znth_all; auto; reflexivity).
    intros x y z Hx Hy Hz.
    assert (Hl1 : u64s_ok (lstep l r)) by (apply lroundl_ok; auto; apply RC_range).
    assert (Hr' : forall r0, In r0 rs -> 0 <= r0 < 24) by (intros; apply Hr; now right).
    rewrite (IH (lstep l r) Hr' Hl1 (zlen_lroundl _ _) x y z Hx Hy Hz).
    apply fold_Rnd_ext; auto.
    intros x' y' z' Hx' Hy' Hz'; unfold AL at 1, lstep, lroundl.
    rewrite znth_ztab by lia.
    apply bit_round; auto. now apply RC_bits.
Qed.

(* ================================================================== *)
(** * Bit strings *)

Definition bnth (s : list bool) (k : Z) : bool := nth (Z.to_nat k) s false.

Lemma blist_ext (a b : list bool) : zlen a = zlen b ->
  (forall k, 0 <= k < zlen a -> bnth a k = bnth b k) -> a = b.
Proof.
  intros Hl H; apply nth_ext with (d := false) (d' := false).
  - unfold zlen in Hl; lia.
  - intros n Hn; specialize (H (Z.of_nat n)); unfold bnth in H; rewrite Nat2Z.id in H.
    apply H; unfold zlen; lia.
Qed.
Lemma bnth_ztab n f k : 0 <= k < n -> bnth (ztab n f) k = f k.
Proof.
  intros; unfold bnth, ztab.
  rewrite (nth_indep _ false (f 0)) by (rewrite map_length; unfold zseq; rewrite map_length, seq_length; lia).
  rewrite map_nth; now rewrite zseq_nth.
Qed.
Lemma bnth_out s k : zlen s <= k -> bnth s k = false.
Proof. intros; unfold bnth, zlen in *; apply nth_overflow; lia. Qed.
Lemma bnth_app a b k : 0 <= k -> bnth (a ++ b) k = if k <? zlen a then bnth a k else bnth b (k - zlen a).
Proof.
  intros; unfold bnth, zlen; destruct (Z.ltb_spec k (Z.of_nat (length a))).
  - apply app_nth1; lia.
  - rewrite app_nth2 by lia; f_equal; lia.
Qed.
Lemma bnth_zrep n k : bnth (zrep n false) k = false.
Proof. unfold bnth, zrep; apply nth_repeat. Qed.
Lemma bnth_firstn n s k : 0 <= k < n -> bnth (firstn (Z.to_nat n) s) k = bnth s k.
Proof. intros; unfold bnth; apply nth_firstn_d; lia. Qed.
Lemma bnth_skipn n s k : 0 <= k -> 0 <= n -> bnth (skipn (Z.to_nat n) s) k = bnth s (n + k).
Proof. intros; unfold bnth; rewrite nth_skipn_d; f_equal; lia. Qed.
Lemma zlen_xorl a : forall b, zlen (xorl a b) = Z.min (zlen a) (zlen b).
Proof.
  induction a as [|x a IH]; intros [|y b]; cbn [xorl]; rewrite ?zlen_nil, ?zlen_cons, ?IH;
  unfold zlen; lia.
Qed.
Lemma nth_xorl a : forall b n, (n < length a)%nat -> (n < length b)%nat ->
  nth n (xorl a b) false = xorb (nth n a false) (nth n b false).
Proof.
  induction a as [|x a IH]; intros [|y b] [|n]; cbn; intros; try lia; auto. apply IH; lia.
Qed.
Lemma bnth_xorl a b k : 0 <= k < zlen a -> k < zlen b -> bnth (xorl a b) k = xorb (bnth a k) (bnth b k).
Proof. unfold zlen, bnth; intros; apply nth_xorl; lia. Qed.

Lemma zlen_bits_of w v : 0 <= w -> zlen (bits_of w v) = w.
Proof. apply zlen_ztab. Qed.
Lemma zlen_bytes_to_bits l : zlen (bytes_to_bits l) = 8 * zlen l.
Proof.
  unfold bytes_to_bits; induction l as [|x l IH]; [reflexivity|].
  cbn [flat_map]; rewrite zlen_app, zlen_cons, IH, zlen_bits_of; lia.
Qed.
Lemma bytes_to_bits_app a b : bytes_to_bits (a ++ b) = bytes_to_bits a ++ bytes_to_bits b.
Proof. apply flat_map_app. Qed.
Lemma bnth_bytes_to_bits l : forall k, 0 <= k < 8 * zlen l ->
  bnth (bytes_to_bits l) k = Z.testbit (znth l (k / 8)) (k mod 8).
Proof.
  induction l as [|x l IH]; intros k Hk; [unfold zlen in Hk; cbn in Hk; lia|].
  rewrite zlen_cons in Hk; unfold bytes_to_bits; cbn [flat_map]; fold (bytes_to_bits l).
  rewrite bnth_app, zlen_bits_of by lia.
  destruct (Z.ltb_spec k 8).
  - unfold bits_of; rewrite bnth_ztab by lia.
    rewrite Z.div_small, Z.mod_small by lia; reflexivity.
  - rewrite IH by lia.
    replace k with ((k - 8) + 1 * 8) at 3 4 by lia.
    rewrite Z.div_add, Z.mod_add by lia.
    rewrite znth_consS by (pose proof (Z.div_pos (k - 8) 8); lia).
    now replace ((k - 8) / 8 + 1 - 1) with ((k - 8) / 8) by lia.
Qed.
Lemma bytes_to_bits_slice l o n : 0 <= o -> 0 <= n -> o + n <= zlen l ->
  firstn (Z.to_nat (8 * n)) (skipn (Z.to_nat (8 * o)) (bytes_to_bits l)) = bytes_to_bits (zslice l o n).
Proof.
  intros. assert (E : zlen (firstn (Z.to_nat (8 * n)) (skipn (Z.to_nat (8 * o)) (bytes_to_bits l))) = 8 * n).
  { unfold zlen; rewrite firstn_length, skipn_length.
    pose proof (zlen_bytes_to_bits l) as HL; unfold zlen in *; lia. }
  apply blist_ext; rewrite E.
  - rewrite zlen_bytes_to_bits, zlen_zslice; lia.
  - intros k Hk; rewrite bnth_firstn, bnth_skipn by lia.
    rewrite !bnth_bytes_to_bits by (rewrite ?zlen_zslice; lia).
    rewrite znth_zslice by dlia.
    replace (8 * o + k) with (k + o * 8) by lia.
    rewrite Z.div_add, Z.mod_add by lia; f_equal; f_equal; lia.
Qed.

(** The 1600-bit state held in 25 lanes. *)
Definition lanes_bits (l : list Z) : list bool :=
  ztab 1600 (fun k => Z.testbit (znth l (k / 64)) (k mod 64)).
Lemma zlen_lanes_bits l : zlen (lanes_bits l) = 1600.
Proof. apply zlen_ztab; lia. Qed.
Lemma zlen_keccak_f s : zlen (keccak_f s) = 1600.
Proof. apply zlen_ztab; lia. Qed.

Lemma keccak_f_lanes l : u64s_ok l -> zlen l = 25 ->
  keccak_f (lanes_bits l) = lanes_bits (lperm l).
Proof.
  intros H1 H2; unfold keccak_f, to_string, lanes_bits at 2; apply ztab_ext; intros k Hk.
  assert (In24 : forall r, In r (zseq 24) -> 0 <= r < 24).
  { intros r Hr; unfold zseq in Hr; apply in_map_iff in Hr; destruct Hr as (n & <- & Hn).
    apply in_seq in Hn; lia. }
  pose proof (fold_lstep_bits (zseq 24) l In24 H1 H2) as HB.
  unfold keccak_f_array.
  assert (HA : aeq (of_string (lanes_bits l)) (AL (znth l))).
  { intros x y z Hx Hy Hz; unfold of_string, AL.
    change (bnth (lanes_bits l) (64 * (5 * y + x) + z) = Z.testbit (znth l (x + 5 * y)) z).
    unfold lanes_bits; rewrite bnth_ztab by lia.
    replace ((64 * (5 * y + x) + z) / 64) with (x + 5 * y) by dlia.
    replace ((64 * (5 * y + x) + z) mod 64) with z by dlia.
    reflexivity. }
  rewrite (fold_Rnd_ext (zseq 24) _ _ HA) by dlia.
  rewrite <- HB by dlia.
  unfold AL, lperm.
  replace ((k / 64) mod 5 + 5 * (k / 320)) with (k / 64) by dlia.
  reflexivity.
Qed.
