(** Properties C06, C07, C13, C19, C26, C29 at the level of the matrix routines. *)
From Verif Require Import CSem Params Util UtilProofs AesSpec KeccakSpec MatrixSpec Macrify
  MatrixProofs MatrixProofs2 EncodeProofs.

Lemma wp_returns_ex {A} (m : res A) (Q : A -> Prop) : wp m Q -> exists a, returns m a /\ Q a.
Proof. intros (a & t & E & H); exists a; split; [exists t; exact E|exact H]. Qed.

(** What every caller provides: matrices of the right size with arbitrary 16-bit entries
    and a 16-byte seed.  The output buffer may hold anything, even nothing. *)
Definition mat_args (P : params) (out s e seedA : list Z) : Prop :=
  zlen out = pN P * 8 /\ zlen s = pN P * 8 /\ u16s_ok s /\ zlen e = pN P * 8 /\ u16s_ok e /\
  zlen seedA = 16 /\ bytes_ok seedA.
Lemma mat_args_ztab P f g h : 0 < pN P -> (forall i, 0 <= f i < 65536) -> (forall i, 0 <= g i < 65536) ->
  (forall i, 0 <= i < 16 -> 0 <= h i < 256) ->
  mat_args P (uninit (pN P * 8)) (ztab (pN P * 8) f) (ztab (pN P * 8) g) (ztab 16 h).
Proof.
  intros Hn Hf Hg Hh; unfold mat_args.
  split; [apply zlen_zrep; lia|]. split; [apply zlen_ztab; lia|]. split; [apply inrange_ztab; auto|].
  split; [apply zlen_ztab; lia|]. split; [apply inrange_ztab; auto|].
  split; [apply zlen_ztab; lia|apply inrange_ztab; auto].
Qed.
Example mat_args_ok : mat_args frodo976 (uninit 7808) (ztab 7808 (fun i => (i * i * 7919) mod 65536))
  (ztab 7808 (fun i => (i * 31) mod 65536)) (ztab 16 (fun i => i)).
Proof. apply (mat_args_ztab frodo976); try (intros; apply Z.mod_pos_bound; lia); cbn; lia. Qed.

(** ** C26: every build, on both byte orders, computes A*S+E with the specification's A. *)
Theorem C26_as_plus_e : forall C out s e seedA,
  valid (cP C) -> mat_args (cP C) out s e seedA ->
  returns (as_plus_e C out s e seedA)
    (AS_plus_E 65536 (pN (cP C)) (A_spec (cGen C) (pN (cP C)) seedA) s e).
Proof.
  intros C out s e seedA V (Lo & Ls & Us & Le & Ue & Hs & Hsb); apply wp_returns.
  pose proof (v_N _ V) as HN; pose proof (v_N16 _ V) as HN16. unfold as_plus_e.
  destruct (cImpl C).
  - exact (ref_as_wp (cEn C) (pN (cP C)) seedA (cGen C) HN HN16 Hs Hsb out s e Lo Ls Us Le Ue _).
  - exact (opt_as_wp (cEn C) (pN (cP C)) seedA (cGen C) HN HN16 Hs Hsb out s e Lo Ls Us Le Ue _ _).
  - exact (opt_as_wp (cEn C) (pN (cP C)) seedA (cGen C) HN HN16 Hs Hsb out s e Lo Ls Us Le Ue _ _).
Qed.
Print Assumptions C26_as_plus_e.

(** The S'*A+E' side.  [ebase] is the address of e; the AVX2 code needs it 32-byte aligned.
    The second component is what is left in e. *)
Definition sa_build_ok (C : config) (ebase : Z) : Prop :=
  (cImpl C <> Reference -> cEn C = LE) /\ (cImpl C = AVX2 -> ebase mod 32 = 0).
Theorem C26_sa_plus_e : forall C ebase out s e seedA,
  valid (cP C) -> mat_args (cP C) out s e seedA -> sa_build_ok C ebase ->
  let r := SA_plus_E 65536 (pN (cP C)) (A_spec (cGen C) (pN (cP C)) seedA) s e in
  returns (sa_plus_e C ebase out s e seedA)
    (r, match cImpl C with Reference => e | _ => r end).
Proof.
  intros C ebase out s e seedA V (Lo & Ls & Us & Le & Ue & Hs & Hsb) (HLE & Hal) r; apply wp_returns.
  pose proof (v_N _ V) as HN; pose proof (v_N16 _ V) as HN16. unfold sa_plus_e.
  destruct (cImpl C).
  - apply wp_bind. eapply wp_mono; [exact (ref_sa_wp (cEn C) (pN (cP C)) seedA (cGen C) HN HN16 Hs Hsb out s e Lo Ls Us Le Ue _)|].
    intros o ->. apply wp_ret; reflexivity.
  - rewrite HLE by discriminate.
    exact (opt_sa_wp LE (pN (cP C)) seedA (cGen C) HN HN16 Hs Hsb out s e Lo Ls Us Le Ue _ false ebase ltac:(discriminate)).
  - rewrite HLE by discriminate.
    exact (opt_sa_wp LE (pN (cP C)) seedA (cGen C) HN HN16 Hs Hsb out s e Lo Ls Us Le Ue _ _ ebase (fun _ => Hal eq_refl)).
Qed.
Print Assumptions C26_sa_plus_e.

(** Multiplying by unit vectors shows single entries of A: key generation and
    encapsulation see the same matrix, whatever the builds of the two sides. *)
Definition unit_at (n k : Z) : list Z := ztab n (fun t => if t =? k then 1 else 0).
Lemma zsum_delta n k f : 0 <= k < n -> zsum n (fun j => if j =? k then f j else 0) = f k.
Proof.
  intros Hk. replace n with (k + (1 + (n - k - 1))) by lia.
  rewrite zsum_split by lia. rewrite (zsum_ext k _ (fun _ => 0)).
  2:{ intros i Hi; destruct (Z.eqb_spec i k); [lia|reflexivity]. }
  rewrite zsum_zero, zsum_split by lia. assert (E1 : forall g, zsum 1 g = g 0) by (intros g; apply (zsum_succ 0 g); lia).
  rewrite E1.
  rewrite Z.add_0_r, Z.eqb_refl. rewrite (zsum_ext (n - k - 1) _ (fun _ => 0)).
  2:{ intros i Hi; destruct (Z.eqb_spec (k + (1 + i)) k); [lia|reflexivity]. }
  rewrite zsum_zero; lia.
Qed.
Lemma unit_u16 n k : u16s_ok (unit_at n k).
Proof. apply inrange_ztab; intros; destruct (_ =? _); lia. Qed.
Lemma A_spec_range g n seedA i j : 0 < n <= 32768 -> n mod 16 = 0 -> zlen seedA = 16 -> bytes_ok seedA ->
  0 <= i < n -> 0 <= j < n -> 0 <= A_spec g n seedA i j < 65536.
Proof.
  intros HN HN16 Hs Hsb Hi Hj.
  destruct (wp_returns_ex _ _ (ref_genA_wp LE n seedA HN HN16 Hs Hsb g AesC)) as (A & _ & (L & U & E)).
  rewrite <- E by auto. apply inrange_znth; [exact U|]. rewrite L; apply (idx_lt n HN); auto.
Qed.
Theorem C26_same_matrix : forall C1 C2 ebase seedA i j k,
  valid (cP C1) -> cP C2 = cP C1 -> cGen C2 = cGen C1 -> sa_build_ok C2 ebase ->
  zlen seedA = 16 -> bytes_ok seedA ->
  let n := pN (cP C1) in
  0 <= i < n -> 0 <= j < n -> 0 <= k < 8 ->
  exists o1 o2 e2,
    returns (as_plus_e C1 (uninit (n * 8)) (unit_at (n * 8) (k * n + j)) (zrep (n * 8) 0) seedA) o1 /\
    returns (sa_plus_e C2 ebase (uninit (n * 8)) (unit_at (n * 8) (k * n + i)) (zrep (n * 8) 0) seedA) (o2, e2) /\
    znth o1 (8 * i + k) = A_spec (cGen C1) n seedA i j /\
    znth o2 (k * n + j) = A_spec (cGen C1) n seedA i j.
Proof.
  intros C1 C2 ebase seedA i j k V EP EG Hb Hs Hsb n Hi Hj Hk. pose proof (v_N _ V) as HN; pose proof (v_N16 _ V) as HN16.
  assert (Hn0 : 0 < n) by (unfold n; lia). fold n in HN, HN16.
  pose proof (A_spec_range (cGen C1) n seedA i j HN HN16 Hs Hsb Hi Hj) as HA.
  assert (Hargs : forall k0, mat_args (cP C1) (uninit (n * 8)) (unit_at (n * 8) k0) (zrep (n * 8) 0) seedA).
  { intros k0; unfold mat_args; fold n. split; [apply zlen_zrep; lia|]. split; [apply zlen_ztab; lia|].
    split; [apply unit_u16|]. split; [apply zlen_zrep; lia|]. split; [apply inrange_zrep0; lia|]. split; auto. }
  assert (Hz : forall t, 0 <= t < n * 8 -> znth (zrep (n * 8) 0) t = 0) by (intros; apply znth_zrep; lia).
  assert (Hu : forall a b t, 0 <= a < 8 -> 0 <= b < n -> 0 <= t < n ->
    znth (unit_at (n * 8) (a * n + b)) (a * n + t) = if t =? b then 1 else 0).
  { intros a b t Ha Hb' Ht. pose proof (idx_lt n HN 8 a t Ha Ht). unfold unit_at; rewrite znth_ztab by lia.
    destruct (Z.eqb_spec (a * n + t) (a * n + b)), (Z.eqb_spec t b); try lia; reflexivity. }
  eexists _, _, _; split; [apply C26_as_plus_e; [exact V|apply Hargs]|].
  split.
  { pose proof (C26_sa_plus_e C2 ebase (uninit (n * 8)) (unit_at (n * 8) (k * n + i)) (zrep (n * 8) 0) seedA) as H2.
    rewrite EP in H2. specialize (H2 V (Hargs _) Hb). cbv zeta in H2. exact H2. }
  rewrite EG. fold n. split.
  - pose proof (idx_lt n HN 8 k j Hk Hj).
    unfold AS_plus_E; rewrite znth_ztab by lia.
    replace ((8 * i + k) / 8) with i by dlia. replace ((8 * i + k) mod 8) with k by dlia.
    unfold AS_E; rewrite Hz by lia.
    rewrite (zsum_ext n _ (fun t => if t =? j then A_spec (cGen C1) n seedA i t else 0)).
    2:{ intros t Ht; rewrite Hu by lia. destruct (t =? j); lia. }
    rewrite zsum_delta by lia. apply Z.mod_small; lia.
  - pose proof (idx_lt n HN 8 k j Hk Hj).
    unfold SA_plus_E; rewrite znth_ztab by lia.
    replace ((k * n + j) / n) with k by (rewrite Z.div_add_l, Z.div_small by lia; lia).
    replace ((k * n + j) mod n) with j by (rewrite Z.add_comm, Z.mod_add, Z.mod_small by lia; lia).
    unfold SA_E; rewrite Hz by lia.
    rewrite (zsum_ext n _ (fun t => if t =? i then A_spec (cGen C1) n seedA t j else 0)).
    2:{ intros t Ht; rewrite Hu by lia. destruct (t =? i); lia. }
    rewrite zsum_delta by lia. apply Z.mod_small; lia.
Qed.
Print Assumptions C26_same_matrix.

(** ** C06: on a little-endian host the builds are interchangeable. *)
Theorem C06_as_builds_agree : forall C1 C2 out1 out2 s e seedA,
  valid (cP C1) -> cP C2 = cP C1 -> cGen C2 = cGen C1 ->
  mat_args (cP C1) out1 s e seedA -> zlen out2 = zlen out1 ->
  exists r, returns (as_plus_e C1 out1 s e seedA) r /\ returns (as_plus_e C2 out2 s e seedA) r.
Proof.
  intros C1 C2 out1 out2 s e seedA V EP EG M L; eexists; split; [apply C26_as_plus_e; auto|].
  rewrite <- EP, <- EG. apply C26_as_plus_e; rewrite EP; [exact V|].
  destruct M as (H & M); split; [congruence|exact M].
Qed.
Print Assumptions C06_as_builds_agree.
Theorem C06_sa_builds_agree : forall C1 C2 ebase1 ebase2 out1 out2 s e seedA,
  valid (cP C1) -> cP C2 = cP C1 -> cGen C2 = cGen C1 -> cEn C1 = LE -> cEn C2 = LE ->
  (cImpl C1 = AVX2 -> ebase1 mod 32 = 0) -> (cImpl C2 = AVX2 -> ebase2 mod 32 = 0) ->
  mat_args (cP C1) out1 s e seedA -> zlen out2 = zlen out1 ->
  exists r e1 e2, returns (sa_plus_e C1 ebase1 out1 s e seedA) (r, e1) /\
                  returns (sa_plus_e C2 ebase2 out2 s e seedA) (r, e2).
Proof.
  intros C1 C2 ebase1 ebase2 out1 out2 s e seedA V EP EG E1 E2 A1 A2 M L.
  do 3 eexists; split; [apply C26_sa_plus_e; auto; split; auto|].
  rewrite <- EP, <- EG. apply C26_sa_plus_e; rewrite ?EP; [exact V| |split; auto].
  destruct M as (H & M); split; [congruence|exact M].
Qed.
Print Assumptions C06_sa_builds_agree.
Example C06_sat : exists C1 C2, valid (cP C1) /\ cP C2 = cP C1 /\ cGen C2 = cGen C1 /\ cImpl C1 <> cImpl C2 /\
  cEn C1 = LE /\ cEn C2 = LE.
Proof.
  exists {| cP := frodo640; cEn := LE; cImpl := Reference; cGen := GenSHAKE; cAes := AesC |},
         {| cP := frodo640; cEn := LE; cImpl := AVX2; cGen := GenSHAKE; cAes := AesNI |}.
  cbn; repeat split; try discriminate; apply valid_640.
Qed.

(** ** C07: byte order.  A*S+E is the same on both kinds of hosts in every build
    (C26_as_plus_e does not mention the byte order) and so is the reference S'*A+E'. *)
Theorem C07_as_any_endian : forall P im g a en1 en2 out s e seedA,
  valid P -> mat_args P out s e seedA ->
  exists r,
    returns (as_plus_e {| cP := P; cEn := en1; cImpl := im; cGen := g; cAes := a |} out s e seedA) r /\
    returns (as_plus_e {| cP := P; cEn := en2; cImpl := im; cGen := g; cAes := a |} out s e seedA) r.
Proof.
  intros P im g a en1 en2 out s e seedA V M.
  apply (C06_as_builds_agree {| cP := P; cEn := en1; cImpl := im; cGen := g; cAes := a |}
           {| cP := P; cEn := en2; cImpl := im; cGen := g; cAes := a |}); auto.
Qed.
Print Assumptions C07_as_any_endian.
Theorem C07_sa_reference_any_endian : forall P g a en1 en2 eb1 eb2 out s e seedA,
  valid P -> mat_args P out s e seedA ->
  exists r,
    returns (sa_plus_e {| cP := P; cEn := en1; cImpl := Reference; cGen := g; cAes := a |} eb1 out s e seedA) (r, e) /\
    returns (sa_plus_e {| cP := P; cEn := en2; cImpl := Reference; cGen := g; cAes := a |} eb2 out s e seedA) (r, e).
Proof.
  intros P g a en1 en2 eb1 eb2 out s e seedA V M; eexists; split.
  - apply (C26_sa_plus_e {| cP := P; cEn := en1; cImpl := Reference; cGen := g; cAes := a |}); auto.
    split; cbn; congruence.
  - apply (C26_sa_plus_e {| cP := P; cEn := en2; cImpl := Reference; cGen := g; cAes := a |}); auto.
    split; cbn; congruence.
Qed.
Print Assumptions C07_sa_reference_any_endian.

(** The optimized routine on a big-endian host computes S'*A'+E' where A' has the two
    bytes of every entry of A exchanged. *)
Theorem C07_sa_optimized_big_endian : forall C ebase out s e seedA,
  valid (cP C) -> mat_args (cP C) out s e seedA -> cImpl C = Optimized -> cEn C = BE ->
  let n := pN (cP C) in
  let A' i j := let a := A_spec (cGen C) n seedA i j in 256 * (a mod 256) + a / 256 in
  let r := SA_plus_E 65536 n A' s e in
  returns (sa_plus_e C ebase out s e seedA) (r, r).
Proof.
  intros C ebase out s e seedA V (Lo & Ls & Us & Le & Ue & Hs & Hsb) HI HE n A' r; apply wp_returns.
  pose proof (v_N _ V) as HN; pose proof (v_N16 _ V) as HN16. unfold sa_plus_e; rewrite HI, HE.
  eapply wp_mono; [exact (opt_sa_wp BE (pN (cP C)) seedA (cGen C) HN HN16 Hs Hsb out s e Lo Ls Us Le Ue _ false ebase ltac:(discriminate))|].
  fold n in HN, HN16 |- *.
  assert (E : sa_raw BE n seedA (cGen C) s e = r).
  { apply ztab_ext; intros t Ht; unfold SA_E. apply (f_equal (fun x => x mod 65536)); f_equal.
    apply zsum_ext; intros j Hj; f_equal. unfold Araw, A'; cbv zeta. cbn [UINT16_TO_LE].
    pose proof (A_spec_range (cGen C) n seedA j (t mod n) HN HN16 Hs Hsb Hj ltac:(apply Z.mod_pos_bound; lia)).
    rewrite swap16 by lia. lia. }
  rewrite E; auto.
Qed.
Print Assumptions C07_sa_optimized_big_endian.
(** Hence the property fails for the optimized build, with the shipped parameters. *)
Theorem C07_sa_optimized_refuted :
  exists out s e seedA o_le e_le o_be e_be,
    mat_args frodo640 out s e seedA /\
    returns (sa_plus_e {| cP := frodo640; cEn := LE; cImpl := Optimized; cGen := GenAES; cAes := AesC |} 0 out s e seedA) (o_le, e_le) /\
    returns (sa_plus_e {| cP := frodo640; cEn := BE; cImpl := Optimized; cGen := GenAES; cAes := AesC |} 0 out s e seedA) (o_be, e_be) /\
    o_le <> o_be.
Proof.
  pose (out := uninit (640 * 8)). pose (s := unit_at (640 * 8) 0). pose (e := ztab (640 * 8) (fun _ => 0)).
  pose (seedA := ztab 16 (fun i => i)).
  assert (M : mat_args frodo640 out s e seedA).
  { apply (mat_args_ztab frodo640); try lia; cbn; try lia. intros; destruct (_ =? _); lia. }
  pose proof (C26_sa_plus_e {| cP := frodo640; cEn := LE; cImpl := Optimized; cGen := GenAES; cAes := AesC |}
    0 out s e seedA valid_640 M ltac:(split; cbn; congruence)) as H1. cbv zeta in H1.
  pose proof (C07_sa_optimized_big_endian {| cP := frodo640; cEn := BE; cImpl := Optimized; cGen := GenAES; cAes := AesC |}
    0 out s e seedA valid_640 M eq_refl eq_refl) as H2. cbv zeta in H2.
  exists out, s, e, seedA; do 4 eexists; split; [exact M|split; [exact H1|split; [exact H2|]]].
  intros Heq. apply (f_equal (fun l => znth l 0)) in Heq. revert Heq. cbn [cP cGen pN frodo640].
  unfold SA_plus_E. rewrite !znth_ztab by lia. change (0 / 640) with 0. change (0 mod 640) with 0.
  unfold SA_E. rewrite Z.mul_0_l. unfold e; rewrite !znth_ztab by lia.
  assert (Hs : forall f, zsum 640 (fun j => znth s (0 + j) * f j) = f 0).
  { intros f. rewrite (zsum_ext 640 _ (fun j => if j =? 0 then f j else 0)); [apply zsum_delta; lia|].
    intros j Hj. unfold s, unit_at; rewrite znth_ztab by lia. cbn [Z.add]. destruct (j =? 0); lia. }
  rewrite !Hs. vm_compute. discriminate.
Qed.
Print Assumptions C07_sa_optimized_refuted.

(** ** C29: S'*A+E' overwrites E' in the optimized builds; the result equals that of the
    reference, which leaves E' intact. *)
Theorem C29_in_place_result : forall C a ebase out s e seedA,
  valid (cP C) -> mat_args (cP C) out s e seedA -> cEn C = LE -> (cImpl C = AVX2 -> ebase mod 32 = 0) ->
  exists r e',
    returns (sa_plus_e C ebase out s e seedA) (r, e') /\
    returns (sa_plus_e {| cP := cP C; cEn := LE; cImpl := Reference; cGen := cGen C; cAes := a |} ebase out s e seedA) (r, e) /\
    (cImpl C <> Reference -> e' = r).
Proof.
  intros C a ebase out s e seedA V M HE Ha; do 2 eexists; split; [apply C26_sa_plus_e; auto; split; auto|]. split.
  - exact (C26_sa_plus_e {| cP := cP C; cEn := LE; cImpl := Reference; cGen := cGen C; cAes := a |} ebase out s e seedA V M
      ltac:(split; cbn; congruence)).
  - destruct (cImpl C); congruence.
Qed.
Print Assumptions C29_in_place_result.

(** ** C19: the model checks every int result of the C expressions; with any 16-bit
    contents none overflows (and no other undefined behaviour occurs). *)
Definition small_args (P : params) (out a b : list Z) : Prop :=
  zlen out = 64 /\ zlen a = 64 /\ u16s_ok a /\ zlen b = 64 /\ u16s_ok b.
Theorem C19_as_sa_no_overflow : forall C ebase out s e seedA,
  valid (cP C) -> mat_args (cP C) out s e seedA -> (cImpl C = AVX2 -> ebase mod 32 = 0) ->
  (exists r, returns (as_plus_e C out s e seedA) r) /\ (exists r, returns (sa_plus_e C ebase out s e seedA) r).
Proof.
  intros C ebase out s e seedA V M Hal; split; [eexists; apply C26_as_plus_e; auto|].
  destruct M as (Lo & Ls & Us & Le & Ue & Hs & Hsb).
  pose proof (v_N _ V) as HN; pose proof (v_N16 _ V) as HN16. unfold sa_plus_e.
  destruct (cImpl C); eexists; apply wp_returns.
  - apply wp_bind. eapply wp_mono; [exact (ref_sa_wp (cEn C) (pN (cP C)) seedA (cGen C) HN HN16 Hs Hsb out s e Lo Ls Us Le Ue _)|].
    intros o ->. apply wp_ret; reflexivity.
  - exact (opt_sa_wp (cEn C) (pN (cP C)) seedA (cGen C) HN HN16 Hs Hsb out s e Lo Ls Us Le Ue _ false ebase ltac:(discriminate)).
  - exact (opt_sa_wp (cEn C) (pN (cP C)) seedA (cGen C) HN HN16 Hs Hsb out s e Lo Ls Us Le Ue _ _ ebase (fun _ => Hal eq_refl)).
Qed.
Print Assumptions C19_as_sa_no_overflow.
(** The other routines, with what they compute in Z_q. *)
Theorem C19_mul_bs : forall P out b s, valid P -> zlen out = 64 -> u16s_ok out ->
  zlen b = pN P * 8 -> u16s_ok b -> zlen s = pN P * 8 -> u16s_ok s ->
  returns (frodo_mul_bs P out b s) (BS_spec (2 ^ pD P) (pN P) b s).
Proof. intros; apply wp_returns, mul_bs_wp; auto. Qed.
Print Assumptions C19_mul_bs.
Theorem C19_mul_add_sb_plus_e : forall P out b s e, valid P -> zlen out = 64 -> u16s_ok out ->
  zlen b = pN P * 8 -> u16s_ok b -> zlen s = pN P * 8 -> u16s_ok s -> zlen e = 64 -> u16s_ok e ->
  returns (frodo_mul_add_sb_plus_e P out b s e) (SB_E_spec (2 ^ pD P) (pN P) s b e).
Proof. intros; apply wp_returns, sb_plus_e_wp; auto. Qed.
Print Assumptions C19_mul_add_sb_plus_e.
Theorem C19_add : forall P a b, valid P -> zlen a = 64 -> u16s_ok a -> zlen b = 64 -> u16s_ok b ->
  returns (frodo_add P a b) (add_spec (2 ^ pD P) a b).
Proof. intros; apply wp_returns, add_wp; auto. Qed.
Print Assumptions C19_add.
Theorem C19_sub : forall P a b, valid P -> zlen a = 64 -> u16s_ok a -> zlen b = 64 -> u16s_ok b ->
  returns (frodo_sub P a b) (sub_spec (2 ^ pD P) a b).
Proof. intros; apply wp_returns, sub_wp; auto. Qed.
Print Assumptions C19_sub.
Theorem C19_key_decode : forall P out c, valid P -> zlen out = 8 * pB P -> zlen c = 64 -> u16s_ok c ->
  returns (frodo_key_decode P out c) (decode_spec (pD P) (pB P) c).
Proof. intros; apply wp_returns, key_decode_wp; auto. Qed.
Print Assumptions C19_key_decode.
(** The margin is real: one accumulation step reaches within 2^15 of the int range's end. *)
Example C19_extreme : mac 65535 32768 65535 = mac 65535 32768 65535 /\
  returns (mac 0 32768 65535) 32768 /\ -32768 * 65535 = -2147450880 /\ -2147483648 <= -2147450880.
Proof. repeat split; try lia. eexists; reflexivity. Qed.

(** ** C13: the encoding tolerates exactly the advertised noise. *)
Theorem C13_encode : forall P out mu, valid P -> zlen out = 64 -> zlen mu = 8 * pB P -> bytes_ok mu ->
  returns (frodo_key_encode P out mu) (encode_spec (pD P) (pB P) mu).
Proof. intros; apply wp_returns, key_encode_wp; auto. Qed.
Print Assumptions C13_encode.

Lemma dc_shift D B k e : 1 <= B < D -> dc D B (k * 2 ^ (D - B) + e) = (k + (e + 2 ^ (D - B - 1)) / 2 ^ (D - B)) mod 2 ^ B.
Proof.
  intros HB. unfold dc.
  assert (E2 : 2 ^ (D - B) = 2 * 2 ^ (D - B - 1)).
  { replace (D - B) with (1 + (D - B - 1)) at 1 by lia. rewrite Z.pow_add_r by lia. reflexivity. }
  assert (ED : 2 ^ D = 2 ^ B * 2 ^ (D - B)) by (rewrite <- Z.pow_add_r by lia; f_equal; lia).
  pose proof (Z.pow_pos_nonneg 2 (D - B - 1) ltac:(lia) ltac:(lia)). pose proof (Z.pow_pos_nonneg 2 B ltac:(lia) ltac:(lia)).
  set (c := k * 2 ^ (D - B) + e). set (h := 2 ^ (D - B - 1)) in *.
  pose proof (Z.div_mod c (2 ^ D) ltac:(lia)) as Hc. set (m := c / 2 ^ D) in *.
  replace (c mod 2 ^ D) with (c - m * 2 ^ D) by lia.
  replace (2 * (c - m * 2 ^ D) * 2 ^ B + 2 ^ D) with ((2 * 2 ^ B) * ((e + h) + (k - m * 2 ^ B) * 2 ^ (D - B))).
  2:{ unfold c; rewrite ED, E2. ring. }
  replace (2 * 2 ^ D) with ((2 * 2 ^ B) * 2 ^ (D - B)) by (rewrite ED; ring).
  rewrite Z.div_mul_cancel_l by lia. rewrite Z.div_add by lia.
  replace ((e + h) / 2 ^ (D - B) + (k - m * 2 ^ B)) with (k + (e + h) / 2 ^ (D - B) + (- m) * 2 ^ B) by ring.
  apply Z.mod_add; lia.
Qed.
Lemma dc_correct D B k e : 1 <= B < D -> 0 <= k < 2 ^ B ->
  (dc D B (k * 2 ^ (D - B) + e) = k <-> exists m, - 2 ^ (D - B - 1) <= e + m * 2 ^ D < 2 ^ (D - B - 1)).
Proof.
  intros HB Hk. rewrite dc_shift by auto.
  assert (E2 : 2 ^ (D - B) = 2 * 2 ^ (D - B - 1)).
  { replace (D - B) with (1 + (D - B - 1)) at 1 by lia. rewrite Z.pow_add_r by lia. reflexivity. }
  assert (ED : 2 ^ D = 2 ^ B * 2 ^ (D - B)) by (rewrite <- Z.pow_add_r by lia; f_equal; lia).
  pose proof (Z.pow_pos_nonneg 2 (D - B - 1) ltac:(lia) ltac:(lia)). pose proof (Z.pow_pos_nonneg 2 B ltac:(lia) ltac:(lia)).
  set (h := 2 ^ (D - B - 1)) in *. set (f := (e + h) / 2 ^ (D - B)).
  pose proof (Z.div_mod (e + h) (2 ^ (D - B)) ltac:(lia)) as Hd. fold f in Hd.
  pose proof (Z.mod_pos_bound (e + h) (2 ^ (D - B)) ltac:(lia)) as Hm.
  split.
  - intros Hmod. pose proof (Z.div_mod (k + f) (2 ^ B) ltac:(lia)) as Hq. rewrite Hmod in Hq.
    exists (- ((k + f) / 2 ^ B)). assert (Ef : f = 2 ^ B * ((k + f) / 2 ^ B)) by lia.
    rewrite ED. set (w := (k + f) / 2 ^ B) in *. clearbody w. clear Hq Hmod. rewrite E2 in *.
    rewrite Ef in Hd. replace (2 * h * (2 ^ B * w)) with (w * (2 ^ B * (2 * h))) in Hd by ring. lia.
  - intros (m & Hem).
    assert (Ef : f = - m * 2 ^ B).
    { unfold f. symmetry. apply (Z.div_unique _ _ _ (e + m * 2 ^ D + h)); [lia|].
      rewrite ED. ring. }
    rewrite Ef. rewrite Z.mod_add by lia. apply Z.mod_small; lia.
Qed.

(** Noise e in the tolerated range: some representative of e modulo q lies in
    [-q/2^(B+1), q/2^(B+1)). *)
Definition tolerated (D B e : Z) : Prop := exists m, - 2 ^ (D - B - 1) <= e + m * 2 ^ D < 2 ^ (D - B - 1).
Theorem C13_decode_exact : forall P out mu c (e : Z -> Z),
  valid P -> zlen out = 8 * pB P -> zlen mu = 8 * pB P -> bytes_ok mu ->
  zlen c = 64 -> u16s_ok c ->
  (forall t, 0 <= t < 64 -> znth c t mod 2 ^ pD P = (znth (encode_spec (pD P) (pB P) mu) t + e t) mod 2 ^ pD P) ->
  exists m, returns (frodo_key_decode P out c) m /\
            (m = mu <-> forall t, 0 <= t < 64 -> tolerated (pD P) (pB P) (e t)).
Proof.
  intros P out mu c e V Lo Lm Bm Lc Uc Hc. eexists; split; [apply C19_key_decode; auto|].
  pose proof (v_B _ V) as HB. set (D := pD P) in *; set (B := pB P) in *.
  assert (Hk : inrange (2 ^ B) (regroup 8 B 64 mu)) by (apply regroup_range; lia).
  assert (Lk : zlen (regroup 8 B 64 mu) = 64) by (apply zlen_regroup; lia).
  assert (Hd : inrange (2 ^ B) (map (dc D B) c)).
  { apply inrange_intro; rewrite zlen_map; intros t Ht; rewrite znth_map by lia. apply Z.mod_pos_bound, Z.pow_pos_nonneg; lia. }
  assert (Hdc : forall t, 0 <= t < 64 -> znth (map (dc D B) c) t = dc D B (znth (regroup 8 B 64 mu) t * 2 ^ (D - B) + e t)).
  { intros t Ht; rewrite znth_map by lia. unfold dc; rewrite Hc by lia.
    unfold encode_spec; rewrite znth_map by lia. reflexivity. }
  assert (Iff : decode_spec D B c = mu <-> map (dc D B) c = regroup 8 B 64 mu).
  { split; intros E.
    - rewrite <- E. unfold decode_spec. symmetry. apply regroup_regroup; try lia; [rewrite zlen_map; lia|exact Hd].
    - unfold decode_spec; rewrite E. apply regroup_regroup; try lia. exact Bm. }
  rewrite Iff. split.
  - intros E t Ht. apply (dc_correct D B (znth (regroup 8 B 64 mu) t)); [exact HB|apply inrange_znth; [exact Hk|lia]|].
    rewrite <- Hdc, E by lia. reflexivity.
  - intros H; apply list_ext; [rewrite zlen_map; lia|]. rewrite zlen_map; intros t Ht. rewrite Hdc by lia.
    apply dc_correct; [exact HB|apply inrange_znth; [exact Hk|lia]|apply H; lia].
Qed.
Print Assumptions C13_decode_exact.
Theorem C13_roundtrip : forall P out out' mu, valid P -> zlen out = 64 -> zlen out' = 8 * pB P ->
  zlen mu = 8 * pB P -> bytes_ok mu ->
  returns (c <- frodo_key_encode P out mu ;; frodo_key_decode P out' c) mu.
Proof.
  intros P out out' mu V Lo Lo' Lm Bm; apply wp_returns, wp_bind.
  eapply wp_mono; [apply returns_wp, C13_encode; auto|]. intros c ->.
  assert (HB := v_B _ V). assert (HD := v_D _ V).
  assert (Hr : u16s_ok (encode_spec (pD P) (pB P) mu)).
  { apply inrange_intro; unfold encode_spec; rewrite zlen_map, zlen_regroup by lia; intros t Ht.
    rewrite znth_map by (rewrite zlen_regroup; lia).
    assert (Hk : 0 <= znth (regroup 8 (pB P) 64 mu) t < 2 ^ pB P)
      by (apply inrange_znth; [apply regroup_range; lia|rewrite zlen_regroup; lia]).
    assert (Hpow : 2 ^ pB P * 2 ^ (pD P - pB P) = 2 ^ pD P) by (rewrite <- Z.pow_add_r by lia; f_equal; lia).
    pose proof (pow2_le_16 (pD P) ltac:(lia)). pose proof (Z.pow_pos_nonneg 2 (pD P - pB P) ltac:(lia) ltac:(lia)).
    split; [apply Z.mul_nonneg_nonneg; lia|].
    apply Z.lt_le_trans with (2 ^ pB P * 2 ^ (pD P - pB P)); [apply Z.mul_lt_mono_pos_r; lia|lia]. }
  destruct (C13_decode_exact P out' mu (encode_spec (pD P) (pB P) mu) (fun _ => 0)) as (m & Hm & E); auto.
  - intros; f_equal; lia.
  - assert (Em : m = mu); [|eapply wp_mono; [apply returns_wp; exact Hm|]; intros a ->; exact Em]. apply E. intros; exists 0.
    pose proof (Z.pow_pos_nonneg 2 (pD P - pB P - 1)). lia.
Qed.
Print Assumptions C13_roundtrip.
(** For FrodoKEM-640 the tolerated range is [-4096, 4095]: both ends and the first values
    outside. *)
Example C13_bounds_640 : tolerated 15 2 (-4096) /\ tolerated 15 2 4095 /\ ~ tolerated 15 2 4096 /\ ~ tolerated 15 2 (-4097).
Proof.
  unfold tolerated. change (2 ^ (15 - 2 - 1)) with 4096. change (2 ^ 15) with 32768.
  split; [exists 0; lia|]. split; [exists 0; lia|].
  split; intros (m & H); lia.
Qed.
