(** Keccak-f[1600] of FIPS 202 is injective: each of the five step mappings is. *)
From Verif Require Import ZList CSem UtilSpec UtilProofs KeccakSpec KeccakProofs.

(** theta: the column parities of a difference in its kernel vanish.  Applying the
    recurrence to itself doubles both offsets; after six doublings the z offset is 64. *)
Section Kernel.
  Variable Q : Z -> Z -> bool.
  Hypothesis Qx : forall x z, Q (x + 5) z = Q x z.
  Hypothesis Qz : forall x z, Q x (z + 64) = Q x z.
  Hypothesis Q1 : forall x z, Q x z = xorb (Q (x - 1) z) (Q (x + 1) (z - 1)).

  Lemma doubled a b : (forall x z, Q x z = xorb (Q (x - a) z) (Q (x + a) (z - b))) ->
    forall x z, Q x z = xorb (Q (x - 2 * a) z) (Q (x + 2 * a) (z - 2 * b)).
  Proof.
    intros H x z. rewrite (H x z), (H (x - a) z), (H (x + a) (z - b)).
    replace (x - a - a) with (x - 2 * a) by lia. replace (x - a + a) with x by lia.
    replace (x + a - a) with x by lia. replace (x + a + a) with (x + 2 * a) by lia.
    replace (z - b - b) with (z - 2 * b) by lia.
    destruct (Q (x - 2 * a) z), (Q x (z - b)), (Q (x + 2 * a) (z - 2 * b)); reflexivity.
  Qed.
  Lemma Qx_mul k : forall x z, Q (x + 5 * Z.of_nat k) z = Q x z.
  Proof.
    induction k as [|k IH]; intros x z; [f_equal; lia|].
    replace (x + 5 * Z.of_nat (S k)) with (x + 5 * Z.of_nat k + 5) by lia. rewrite Qx; apply IH.
  Qed.
  Lemma neighbours x z : Q x z = xorb (Q (x + 1) z) (Q (x - 1) z).
  Proof.
    pose proof (doubled _ _ (doubled _ _ (doubled _ _ (doubled _ _ (doubled _ _ (doubled _ _ Q1)))))) as H.
    assert (H' : Q x z = xorb (Q (x - 64) z) (Q (x + 64) (z - 64))) by exact (H x z).
    rewrite H', <- (Qx_mul 13 (x - 64) z), <- (Qz (x + 64) (z - 64)).
    replace (x - 64 + 5 * Z.of_nat 13) with (x + 1) by lia.
    replace (x + 64) with (x - 1 + 5 * Z.of_nat 13) by lia. rewrite (Qx_mul 13).
    now replace (z - 64 + 64) with z by lia.
  Qed.
  Lemma kernel x z : Q x z = false.
  Proof.
    pose proof (neighbours x z) as A0. pose proof (neighbours (x + 1) z) as A1.
    pose proof (neighbours (x + 2) z) as A2. pose proof (neighbours (x + 3) z) as A3.
    pose proof (neighbours (x + 4) z) as A4.
    replace (x + 1 - 1) with x in A1 by lia. replace (x + 1 + 1) with (x + 2) in A1 by lia.
    replace (x + 2 - 1) with (x + 1) in A2 by lia. replace (x + 2 + 1) with (x + 3) in A2 by lia.
    replace (x + 3 - 1) with (x + 2) in A3 by lia. replace (x + 3 + 1) with (x + 4) in A3 by lia.
    replace (x + 4 - 1) with (x + 3) in A4 by lia. replace (x + 4 + 1) with (x + 5) in A4 by lia.
    rewrite Qx in A4.
    rewrite <- (Qx (x - 1) z) in A0. replace (x - 1 + 5) with (x + 4) in A0 by lia.
    destruct (Q x z), (Q (x + 1) z), (Q (x + 2) z), (Q (x + 3) z), (Q (x + 4) z); cbn in *; congruence.
  Qed.
End Kernel.

Lemma five x : 0 <= x < 5 -> x = 0 \/ x = 1 \/ x = 2 \/ x = 3 \/ x = 4. Proof. lia. Qed.

Lemma theta_inj A B : aeq (theta A) (theta B) -> aeq A B.
Proof.
  intros H.
  set (Q := fun x z => xorb (thetaC A (x mod 5) (z mod 64)) (thetaC B (x mod 5) (z mod 64))).
  assert (D : forall x y z, 0 <= x < 5 -> 0 <= y < 5 -> 0 <= z < 64 ->
    xorb (A x y z) (B x y z) = xorb (Q (x - 1) z) (Q (x + 1) (z - 1))).
  { intros x y z Hx Hy Hz. specialize (H x y z Hx Hy Hz). unfold theta, thetaD in H.
    unfold Q. rewrite (Z.mod_small z 64) by lia.
    destruct (A x y z), (B x y z), (thetaC A ((x - 1) mod 5) z), (thetaC B ((x - 1) mod 5) z),
      (thetaC A ((x + 1) mod 5) ((z - 1) mod 64)), (thetaC B ((x + 1) mod 5) ((z - 1) mod 64));
      cbn in *; congruence. }
  assert (K : forall x z, Q x z = false).
  { apply kernel.
    - intros x z; unfold Q. replace (x + 5) with (x + 1 * 5) by lia. now rewrite Z.mod_add by lia.
    - intros x z; unfold Q. replace (z + 64) with (z + 1 * 64) by lia. now rewrite Z.mod_add by lia.
    - intros x z.
      assert (E1 : Q (x - 1) z = Q (x mod 5 - 1) (z mod 64)).
      { unfold Q. rewrite Zmod_mod, Zminus_mod_idemp_l. reflexivity. }
      assert (E2 : Q (x + 1) (z - 1) = Q (x mod 5 + 1) (z mod 64 - 1)).
      { unfold Q. rewrite Zminus_mod_idemp_l, Zplus_mod_idemp_l. reflexivity. }
      rewrite E1, E2. unfold Q at 1. unfold thetaC.
      pose proof (mod5 x) as Hx. pose proof (mod64 z) as Hz.
      set (a := x mod 5) in *. set (c := z mod 64) in *.
      pose proof (D a 0 c Hx ltac:(lia) Hz) as D0. pose proof (D a 1 c Hx ltac:(lia) Hz) as D1.
      pose proof (D a 2 c Hx ltac:(lia) Hz) as D2. pose proof (D a 3 c Hx ltac:(lia) Hz) as D3.
      pose proof (D a 4 c Hx ltac:(lia) Hz) as D4.
      set (R := xorb (Q (a - 1) c) (Q (a + 1) (c - 1))) in *.
      destruct R; revert D0 D1 D2 D3 D4;
      destruct (A a 0 c), (B a 0 c); cbn; intros D0; try discriminate;
      destruct (A a 1 c), (B a 1 c); cbn; intros D1; try discriminate;
      destruct (A a 2 c), (B a 2 c); cbn; intros D2; try discriminate;
      destruct (A a 3 c), (B a 3 c); cbn; intros D3; try discriminate;
      destruct (A a 4 c), (B a 4 c); cbn; intros D4; try discriminate; reflexivity. }
  intros x y z Hx Hy Hz. specialize (D x y z Hx Hy Hz). rewrite !K in D.
  destruct (A x y z), (B x y z); cbn in D; congruence.
Qed.

Lemma rho_inj A B : aeq (rho A) (rho B) -> aeq A B.
Proof.
  intros H x y z Hx Hy Hz.
  specialize (H x y ((z + rho_off x y) mod 64) Hx Hy (mod64 _)). unfold rho in H.
  rewrite Zminus_mod_idemp_l in H. replace (z + rho_off x y - rho_off x y) with z in H by lia.
  now rewrite Z.mod_small in H by lia.
Qed.

Lemma pi_inj A B : aeq (pi_ A) (pi_ B) -> aeq A B.
Proof.
  intros H x y z Hx Hy Hz.
  specialize (H y ((2 * (x - y)) mod 5) z Hy (mod5 _) Hz). unfold pi_ in H.
  replace ((y + 3 * ((2 * (x - y)) mod 5)) mod 5) with x in H; [exact H|].
  destruct (five x Hx) as [->|[->|[->|[->| ->]]]]; destruct (five y Hy) as [->|[->|[->|[->| ->]]]]; reflexivity.
Qed.

(** chi on one row of five bits *)
Definition row (a b c d e : bool) : bool * bool * bool * bool * bool :=
  (xorb a (andb (xorb b true) c), xorb b (andb (xorb c true) d), xorb c (andb (xorb d true) e),
   xorb d (andb (xorb e true) a), xorb e (andb (xorb a true) b)).
Lemma row_inj a b c d e a' b' c' d' e' : row a b c d e = row a' b' c' d' e' ->
  a = a' /\ b = b' /\ c = c' /\ d = d' /\ e = e'.
Proof.
  destruct a, b, c, d, e; destruct a', b', c', d', e'; cbn; intros H; try discriminate; auto 10.
Qed.
Lemma chi_inj A B : aeq (chi A) (chi B) -> aeq A B.
Proof.
  intros H x y z Hx Hy Hz.
  assert (R : row (A 0 y z) (A 1 y z) (A 2 y z) (A 3 y z) (A 4 y z) =
              row (B 0 y z) (B 1 y z) (B 2 y z) (B 3 y z) (B 4 y z)).
  { unfold row.
    pose proof (H 0 y z ltac:(lia) Hy Hz) as E0. pose proof (H 1 y z ltac:(lia) Hy Hz) as E1.
    pose proof (H 2 y z ltac:(lia) Hy Hz) as E2. pose proof (H 3 y z ltac:(lia) Hy Hz) as E3.
    pose proof (H 4 y z ltac:(lia) Hy Hz) as E4. unfold chi in *.
    change ((0 + 1) mod 5) with 1 in *. change ((0 + 2) mod 5) with 2 in *.
    change ((1 + 1) mod 5) with 2 in *. change ((1 + 2) mod 5) with 3 in *.
    change ((2 + 1) mod 5) with 3 in *. change ((2 + 2) mod 5) with 4 in *.
    change ((3 + 1) mod 5) with 4 in *. change ((3 + 2) mod 5) with 0 in *.
    change ((4 + 1) mod 5) with 0 in *. change ((4 + 2) mod 5) with 1 in *.
    rewrite E0, E1, E2, E3, E4. reflexivity. }
  apply row_inj in R. destruct R as (R0 & R1 & R2 & R3 & R4).
  destruct (five x Hx) as [->|[->|[->|[->| ->]]]]; assumption.
Qed.

Lemma iota_inj ir A B : aeq (iota_ ir A) (iota_ ir B) -> aeq A B.
Proof.
  intros H x y z Hx Hy Hz. specialize (H x y z Hx Hy Hz). unfold iota_ in H.
  destruct (_ && _); [|exact H].
  destruct (A x y z), (B x y z), (RCbit ir z); cbn in H; congruence.
Qed.

Lemma Rnd_inj ir A B : aeq (Rnd A ir) (Rnd B ir) -> aeq A B.
Proof. intros H. apply theta_inj, rho_inj, pi_inj, chi_inj, (iota_inj ir), H. Qed.
Lemma fold_Rnd_inj rs : forall A B, aeq (fold_left Rnd rs A) (fold_left Rnd rs B) -> aeq A B.
Proof.
  induction rs as [|r rs IH]; intros A B H; [exact H|]. cbn [fold_left] in H.
  apply (Rnd_inj r), IH, H.
Qed.

Lemma keccak_f_inj a b : zlen a = 1600 -> zlen b = 1600 -> keccak_f a = keccak_f b -> a = b.
Proof.
  intros La Lb H.
  assert (K : aeq (of_string a) (of_string b)).
  { apply (fold_Rnd_inj (zseq 24)). intros x y z Hx Hy Hz.
    assert (E : forall A : sarray, bnth (to_string A) (64 * (5 * y + x) + z) = A x y z).
    { intros A. unfold to_string. rewrite bnth_ztab by lia.
      replace ((64 * (5 * y + x) + z) / 64 mod 5) with x by dlia.
      replace ((64 * (5 * y + x) + z) / 320) with y by dlia.
      replace ((64 * (5 * y + x) + z) mod 64) with z by dlia. reflexivity. }
    unfold keccak_f, keccak_f_array in H.
    rewrite <- (E (fold_left Rnd (zseq 24) (of_string a))), <- (E (fold_left Rnd (zseq 24) (of_string b))).
    now rewrite H. }
  apply blist_ext; [lia|]. intros k Hk. rewrite La in Hk.
  specialize (K ((k / 64) mod 5) (k / 320) (k mod 64) (mod5 _) ltac:(dlia) (mod64 _)).
  unfold of_string in K. fold (bnth a (64 * (5 * (k / 320) + (k / 64) mod 5) + k mod 64)) in K.
  fold (bnth b (64 * (5 * (k / 320) + (k / 64) mod 5) + k mod 64)) in K.
  replace (64 * (5 * (k / 320) + (k / 64) mod 5) + k mod 64) with k in K by dlia. exact K.
Qed.
Lemma iter_keccak_f_inj n : forall a b, zlen a = 1600 -> zlen b = 1600 ->
  iter n keccak_f a = iter n keccak_f b -> a = b.
Proof.
  induction n as [|n IH]; intros a b La Lb H; [exact H|]. cbn [iter] in H.
  apply keccak_f_inj; auto using zlen_keccak_f.
Qed.

Lemma lanes_bits_inj a b : zlen a = 25 -> zlen b = 25 -> u64s_ok a -> u64s_ok b ->
  lanes_bits a = lanes_bits b -> a = b.
Proof.
  intros La Lb Ha Hb H. apply list_ext; [lia|]. intros i Hi. rewrite La in Hi.
  pose proof (inrange_znth_all M64 a i ltac:(reflexivity) Ha) as Ra.
  pose proof (inrange_znth_all M64 b i ltac:(reflexivity) Hb) as Rb.
  rewrite M64_pow in Ra, Rb.
  apply Z.bits_inj'. intros n Hn.
  destruct (Z.ltb_spec n 64) as [Hlt|Hge].
  - assert (E : bnth (lanes_bits a) (64 * i + n) = bnth (lanes_bits b) (64 * i + n)) by now rewrite H.
    unfold lanes_bits in E. rewrite !bnth_ztab in E by lia.
    replace ((64 * i + n) / 64) with i in E by dlia. now replace ((64 * i + n) mod 64) with n in E by dlia.
  - rewrite !(testbit_high 64) by lia. reflexivity.
Qed.
