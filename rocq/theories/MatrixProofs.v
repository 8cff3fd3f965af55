(** Generation of A: src/frodo_macrify*.c against MatrixSpec.v. *)
From Verif Require Import CSem Params Fips202 Fips202x4 Aes AesSpec AesProofs AesProofs2 KeccakSpec KeccakProofs ShakeProofs
  Fips202x4Proofs MatrixSpec Macrify.

Local Opaque AES128 SHAKE128 Cipher_spec KeyExpansion.

Lemma word16_words en b k : bytes_ok b -> 0 <= k < zlen b / 2 ->
  LE_TO_UINT16 en (znth (words_of_bytes en b) k) = word16 b k.
Proof.
  intros Hb Hk; rewrite znth_words by lia; unfold word16.
  apply LE_TO_UINT16_word; apply inrange_znth_all; auto; lia.
Qed.
Lemma UINT16_TO_LE_range en w : 0 <= w < 65536 -> 0 <= UINT16_TO_LE en w < 65536.
Proof. intros; destruct en; cbn [UINT16_TO_LE]; [lia|rewrite swap16 by lia; dlia]. Qed.
Lemma LE_TO_UINT16_range en w : 0 <= w < 65536 -> 0 <= LE_TO_UINT16 en w < 65536.
Proof. exact (UINT16_TO_LE_range en w). Qed.
Lemma le16_bytes en w : 0 <= w < 65536 -> bytes_of_words en [u16 (UINT16_TO_LE en w)] = le16 w.
Proof.
  intros Hw; pose proof (UINT16_TO_LE_range en w Hw) as Hr.
  unfold u16; rewrite Z.mod_small by lia.
  change (bytes_of_words en [UINT16_TO_LE en w])
    with [byte_of_u16 en (UINT16_TO_LE en w) 0; byte_of_u16 en (UINT16_TO_LE en w) 1].
  rewrite !byte_of_UINT16_TO_LE by lia; unfold byte_of_u16, le16; cbn [Z.eqb].
  rewrite (Z.mod_small (w / 256)) by dlia; reflexivity.
Qed.
Lemma le16_ok w : bytes_ok (le16 w).
Proof. unfold le16; repeat constructor; apply Z.mod_pos_bound; lia. Qed.

Section Gen.
Variables (en : endian) (N : Z) (seedA : list Z).
Hypothesis HN : 0 < N <= 32768.
Hypothesis HN16 : N mod 16 = 0.
Hypothesis Hseed : zlen seedA = 16.
Hypothesis Hseedb : bytes_ok seedA.

(** [A] holds R rows starting with row [i], each word stored as the host reads the
    little-endian bytes of the specification. *)
Definition rows_ok (g : genA) (R i : Z) (A : list Z) : Prop :=
  zlen A = R * N /\ u16s_ok A /\
  forall q j, 0 <= q < R -> 0 <= j < N ->
    LE_TO_UINT16 en (znth A (q * N + j)) = A_spec g N seedA (i + q) j.

(* ------------------------------------------------------------------ *)
(** ** AES *)
Definition tword (i q j : Z) : Z :=
  if j mod 8 =? 0 then UINT16_TO_LE en (i + q)
  else if j mod 8 =? 1 then UINT16_TO_LE en (j - 1) else 0.
Definition tmpl (R i : Z) (temp : list Z) : Prop :=
  zlen temp = R * N /\ u16s_ok temp /\
  forall q j, 0 <= q < R -> 0 <= j < N -> znth temp (q * N + j) = tword i q j.

Lemma tmpl_block R i temp q m : tmpl R i temp -> 0 <= i -> i + R <= N ->
  0 <= q < R -> 0 <= m < N / 8 ->
  zslice (bytes_of_words en temp) (16 * (q * (N / 8) + m)) 16
  = le16 (i + q) ++ le16 (8 * m) ++ zrep 12 0.
Proof.
  intros (L & U & T) Hi HR Hq Hm.
  set (M := N / 8) in *.
  assert (EN : N = 8 * M) by (unfold M; dlia).
  assert (HqM : 0 <= q * M) by (apply Z.mul_nonneg_nonneg; lia).
  assert (HqM2 : q * M + M <= R * M) by (pose proof (Zmult_le_compat_r (q + 1) R M ltac:(lia) ltac:(lia)); lia).
  assert (LN : zlen temp = 8 * (R * M)) by (rewrite L, EN; lia).
  apply list_ext.
  - rewrite zlen_zslice by (rewrite ?zlen_bytes; lia). reflexivity.
  - rewrite zlen_zslice by (rewrite ?zlen_bytes; lia). intros k Hk.
    rewrite znth_zslice by (rewrite ?zlen_bytes; lia).
    rewrite znth_bytes by lia.
    replace ((16 * (q * M + m) + k) / 2) with (q * N + (8 * m + k / 2)) by (rewrite EN; dlia).
    replace ((16 * (q * M + m) + k) mod 2) with (k mod 2) by dlia.
    rewrite T by dlia; unfold tword.
    replace ((8 * m + k / 2) mod 8) with (k / 2) by dlia.
    assert (Hk' : k = 0 \/ k = 1 \/ k = 2 \/ k = 3 \/ 4 <= k) by lia.
    destruct Hk' as [->|[->|[->|[->|Hk']]]].
    + change (0 / 2 =? 0) with true; cbv iota. rewrite byte_of_UINT16_TO_LE by lia.
      unfold byte_of_u16; reflexivity.
    + change (1 / 2 =? 0) with true; cbv iota. rewrite byte_of_UINT16_TO_LE by lia.
      change ((i + q) / 256 = ((i + q) / 256) mod 256); rewrite Z.mod_small by dlia; reflexivity.
    + change (2 / 2 =? 0) with false; change (2 / 2 =? 1) with true; cbv iota.
      replace (8 * m + 2 / 2 - 1) with (8 * m) by dlia. rewrite byte_of_UINT16_TO_LE by lia.
      unfold byte_of_u16; reflexivity.
    + change (3 / 2 =? 0) with false; change (3 / 2 =? 1) with true; cbv iota.
      replace (8 * m + 3 / 2 - 1) with (8 * m) by dlia. rewrite byte_of_UINT16_TO_LE by lia.
      change (8 * m / 256 = (8 * m / 256) mod 256); rewrite Z.mod_small by dlia; reflexivity.
    + destruct (Z.eqb_spec (k / 2) 0); [dlia|]. destruct (Z.eqb_spec (k / 2) 1); [dlia|].
      change (le16 (i + q) ++ le16 (8 * m) ++ zrep 12 0) with ((le16 (i + q) ++ le16 (8 * m)) ++ zrep 12 0).
      rewrite znth_app2 by exact Hk'. rewrite znth_zrep0.
      unfold byte_of_u16; destruct en; destruct (k mod 2 =? 0); reflexivity.
Qed.

Lemma aes_rows_ok R i temp : tmpl R i temp -> 0 <= i -> 0 <= R -> i + R <= N ->
  let b := ECB_spec 4 10 seedA (bytes_of_words en temp) (R * (N / 8)) in
  zlen b = 2 * (R * N) /\ bytes_ok b /\ rows_ok GenAES R i (words_of_bytes en b).
Proof.
  intros HT Hi HR0 HR b; pose proof HT as (L & U & T).
  set (M := N / 8) in *.
  assert (EN : N = 8 * M) by (unfold M; dlia).
  assert (HRM : 0 <= R * M) by (apply Z.mul_nonneg_nonneg; lia).
  assert (Lb : zlen b = 2 * (R * N)) by (unfold b, ECB_spec; rewrite zlen_ztab by lia; rewrite EN; lia).
  assert (LN : zlen temp = 8 * (R * M)) by (rewrite L, EN; lia).
  assert (HNk : 4 = 4 /\ 10 = 10 \/ 4 = 8 /\ 10 = 14) by auto.
  assert (Hblk : forall m, 0 <= m < R * M ->
     zlen (Cipher_spec 10 (KeyExpansion 4 10 seedA) (zslice (bytes_of_words en temp) (16 * m) 16)) = 16 /\
     bytes_ok (Cipher_spec 10 (KeyExpansion 4 10 seedA) (zslice (bytes_of_words en temp) (16 * m) 16))).
  { intros m Hm; apply (Cipher_spec_ok 4 10 seedA HNk Hseed Hseedb).
    split; [rewrite zlen_zslice; [reflexivity|lia|lia|rewrite zlen_bytes; lia]|].
    apply inrange_zslice, inrange_bytes, U. }
  assert (Bb : bytes_ok b).
  { unfold b, ECB_spec; apply inrange_ztab; intros k Hk.
    apply inrange_znth_all; [lia|apply Hblk; dlia]. }
  split; [exact Lb|]; split; [exact Bb|]; split; [|split].
  - rewrite zlen_words, Lb; dlia.
  - apply inrange_words, Bb.
  - intros q j Hq Hj.
    assert (HqM : 0 <= q * M) by (apply Z.mul_nonneg_nonneg; lia).
    assert (HqM2 : q * M + M <= R * M) by (pose proof (Zmult_le_compat_r (q + 1) R M ltac:(lia) ltac:(lia)); lia).
    assert (Hk : 0 <= q * N + j < R * N) by (rewrite EN in *; lia).
    rewrite word16_words by (auto; rewrite Lb; dlia).
    cbn [A_spec]; unfold A_aes, word16, b, ECB_spec.
    assert (E : q * N + j = 8 * (q * M + j / 8) + j mod 8) by (rewrite EN; dlia).
    assert (Hj8 : 0 <= j mod 8 < 8) by (apply Z.mod_pos_bound; lia).
    rewrite !znth_ztab by (rewrite E; dlia).
    replace (2 * (q * N + j) / 16) with (q * M + j / 8) by (rewrite E; dlia).
    replace ((2 * (q * N + j) + 1) / 16) with (q * M + j / 8) by (rewrite E; dlia).
    replace ((2 * (q * N + j)) mod 16) with (2 * (j mod 8)) by (rewrite E; dlia).
    replace ((2 * (q * N + j) + 1) mod 16) with (2 * (j mod 8) + 1) by (rewrite E; dlia).
    unfold M; rewrite (tmpl_block R i temp q (j / 8) HT) by (auto; fold M; dlia).
    reflexivity.
Qed.

(* ------------------------------------------------------------------ *)
(** ** Arrays of R rows of N words *)
Definition mat (R : Z) (A : list Z) (f : Z -> Z -> Z) : Prop :=
  zlen A = R * N /\ u16s_ok A /\
  forall q j, 0 <= q < R -> 0 <= j < N -> znth A (q * N + j) = f q j.
Lemma idx_lt R q j : 0 <= q < R -> 0 <= j < N -> 0 <= q * N + j < R * N.
Proof.
  intros; pose proof (Z.mul_nonneg_nonneg q N); pose proof (Zmult_le_compat_r (q + 1) R N). lia.
Qed.
Lemma idx_inj q j q' j' : 0 <= j < N -> 0 <= j' < N -> q * N + j = q' * N + j' -> q = q' /\ j = j'.
Proof.
  intros Hj Hj' E. assert (q = q').
  { replace q with ((q * N + j) / N) by (rewrite Z.div_add_l, Z.div_small by lia; lia).
    rewrite E, Z.div_add_l, (Z.div_small j') by lia; lia. }
  subst; split; lia.
Qed.
Lemma mat_intro R A : zlen A = R * N -> u16s_ok A -> mat R A (fun q j => znth A (q * N + j)).
Proof. split; auto. Qed.
Lemma mat_ext R A f g : (forall q j, 0 <= q < R -> 0 <= j < N -> f q j = g q j) -> mat R A f -> mat R A g.
Proof. intros E (L & U & H); split; [auto|split; [auto|]]. intros; rewrite H by auto; auto. Qed.
Lemma mat_zero R : 0 <= R -> mat R (zrep (R * N) 0) (fun _ _ => 0).
Proof.
  intros; split; [rewrite zlen_zrep; [reflexivity|apply Z.mul_nonneg_nonneg; lia]|split].
  - apply inrange_zrep0; lia.
  - intros; apply znth_zrep0.
Qed.
Definition upd2 (f : Z -> Z -> Z) (q0 j0 v : Z) : Z -> Z -> Z :=
  fun q j => if (q =? q0) && (j =? j0) then v else f q j.
Lemma wr_mat R A f k q0 j0 v (Q : list Z -> Prop) : mat R A f -> k = q0 * N + j0 ->
  0 <= q0 < R -> 0 <= j0 < N -> 0 <= v < 65536 ->
  (forall A', mat R A' (upd2 f q0 j0 v) -> Q A') -> wp (wr A k v) Q.
Proof.
  intros (L & U & H) -> Hq Hj Hv HQ.
  pose proof (idx_lt R q0 j0 Hq Hj).
  apply wp_wr; [lia|]. apply HQ; split; [rewrite zlen_zset; auto|split].
  - apply inrange_zset; auto.
  - intros q j Hq' Hj'; rewrite znth_zset by lia; unfold upd2.
    destruct (Z.eqb_spec (q0 * N + j0) (q * N + j)) as [E|E].
    + destruct (idx_inj q0 j0 q j) as (-> & ->); auto. rewrite !Z.eqb_refl; reflexivity.
    + destruct (Z.eqb_spec q q0) as [->|]; [|apply H; auto].
      destruct (Z.eqb_spec j j0) as [->|]; [contradiction|apply H; auto].
Qed.
Lemma put_row R A f k q0 x (Q : list Z -> Prop) : mat R A f -> k = q0 * N ->
  0 <= q0 < R -> zlen x = N -> u16s_ok x ->
  (forall A', mat R A' (fun q j => if q =? q0 then znth x j else f q j) -> Q A') -> wp (put A k x) Q.
Proof.
  intros (L & U & H) -> Hq Hx Ux HQ.
  pose proof (idx_lt R q0 0 Hq ltac:(lia)); pose proof (idx_lt R q0 (N - 1) Hq ltac:(lia)).
  apply wp_put; [lia|lia|]. apply HQ; split; [rewrite zlen_zsplice by lia; auto|split].
  - apply inrange_zsplice; auto.
  - intros q j Hq' Hj'; rewrite znth_zsplice by lia.
    destruct (Z.eqb_spec q q0) as [->|Hne].
    + destruct (Z.leb_spec (q0 * N) (q0 * N + j)); [|lia].
      destruct (Z.ltb_spec (q0 * N + j) (q0 * N + zlen x)); [|lia]. cbn; f_equal; lia.
    + destruct (Z.leb_spec (q0 * N) (q * N + j)); cbn [andb]; [|apply H; auto].
      destruct (Z.ltb_spec (q * N + j) (q0 * N + zlen x)); [|apply H; auto].
      exfalso; apply Hne. destruct (idx_inj q j q0 (q * N + j - q0 * N)); auto; lia.
Qed.

(** The template without the row numbers. *)
Definition base (R : Z) (temp : list Z) : Prop :=
  exists f, mat R temp f /\
    forall q j, 0 <= q < R -> 0 <= j < N -> j mod 8 <> 0 ->
      f q j = if j mod 8 =? 1 then UINT16_TO_LE en (j - 1) else 0.
Lemma tmpl_base R i temp : tmpl R i temp -> base R temp.
Proof.
  intros H; exists (tword i); split; [exact H|]; intros q j _ _ Hj; unfold tword.
  destruct (Z.eqb_spec (j mod 8) 0); [contradiction|reflexivity].
Qed.
Lemma tmpl_mat R i temp : tmpl R i temp <-> mat R temp (tword i).
Proof. reflexivity. Qed.
Lemma u16_TO_LE w : 0 <= w < 65536 -> u16 (UINT16_TO_LE en w) = UINT16_TO_LE en w.
Proof. intros; unfold u16; apply Z.mod_small, UINT16_TO_LE_range; auto. Qed.

Ltac wr1 q0 j0 := eapply (wr_mat _ _ _ _ q0 j0); [eassumption| | | | |]; [lia|lia|dlia|apply UINT16_TO_LE_range; lia|].
Ltac eqbs := unfold upd2; cbv beta;
  repeat match goal with |- context [?a =? ?b] => destruct (Z.eqb_spec a b); cbn [andb] end;
  repeat match goal with |- context [?a <? ?b] => destruct (Z.ltb_spec a b); cbn [andb] end.

Definition init_f (k : Z) : Z -> Z -> Z :=
  fun q j => if (j mod 8 =? 1) && (j <? 8 * k) then UINT16_TO_LE en (j - 1) else 0.
Lemma as_init_loop_wp :
  wp (for_step 0 N STRIPE (fun j temp =>
        temp <- wr temp (j + 1 + 0 * N) (u16 (UINT16_TO_LE en j)) ;;
        temp <- wr temp (j + 1 + 1 * N) (u16 (UINT16_TO_LE en j)) ;;
        temp <- wr temp (j + 1 + 2 * N) (u16 (UINT16_TO_LE en j)) ;;
        wr temp (j + 1 + 3 * N) (u16 (UINT16_TO_LE en j))) (zrep (4 * N) 0)) (base 4).
Proof.
  eapply (wp_for_step (fun k temp => mat 4 temp (init_f k)) 0 N 8 (N / 8)); try dlia.
  - eapply mat_ext; [|apply mat_zero; lia]. intros; unfold init_f.
    destruct (Z.ltb_spec j (8 * 0)); [lia|now rewrite andb_false_r].
  - intros k temp Hk HM. assert (Hk8 : 8 * k + 8 <= N) by dlia. rewrite !u16_TO_LE by lia.
    apply wp_bind; wr1 0 (8 * k + 1); intros t1 H1. apply wp_bind; wr1 1 (8 * k + 1); intros t2 H2.
    apply wp_bind; wr1 2 (8 * k + 1); intros t3 H3. wr1 3 (8 * k + 1); intros t4 H4.
    eapply mat_ext; [|exact H4]. intros q j Hq Hj; unfold init_f; clear - Hq Hj Hk8 Hk.
    replace (0 + k * 8) with (8 * k) by lia.
    destruct (Z.eq_dec j (8 * k + 1)) as [->|Hne].
    + replace ((8 * k + 1) mod 8) with 1 by dlia. replace (8 * k + 1 - 1) with (8 * k) by lia.
      eqbs; try lia; reflexivity.
    + unfold upd2. destruct (Z.eqb_spec j (8 * k + 1)); [contradiction|]. rewrite !andb_false_r.
      destruct (Z.eqb_spec (j mod 8) 1); [|reflexivity]; cbn [andb].
      destruct (Z.ltb_spec j (8 * k)), (Z.ltb_spec j (8 * (k + 1))); try reflexivity; dlia.
  - intros temp HM; exists (init_f (N / 8)); split; [exact HM|]. intros q j Hq Hj _; unfold init_f.
    destruct (j mod 8 =? 1); [|reflexivity]. destruct (Z.ltb_spec j (8 * (N / 8))); [reflexivity|dlia].
Qed.
Lemma sa_init_loop_wp :
  wp (for_step 0 N 8 (fun j Ainit =>
              Ainit <- wr Ainit (0 * N + j + 1) (u16 (UINT16_TO_LE en j)) ;;
              Ainit <- wr Ainit (1 * N + j + 1) (u16 (UINT16_TO_LE en j)) ;;
              Ainit <- wr Ainit (2 * N + j + 1) (u16 (UINT16_TO_LE en j)) ;;
              Ainit <- wr Ainit (3 * N + j + 1) (u16 (UINT16_TO_LE en j)) ;;
              Ainit <- wr Ainit (4 * N + j + 1) (u16 (UINT16_TO_LE en j)) ;;
              Ainit <- wr Ainit (5 * N + j + 1) (u16 (UINT16_TO_LE en j)) ;;
              Ainit <- wr Ainit (6 * N + j + 1) (u16 (UINT16_TO_LE en j)) ;;
              wr Ainit (7 * N + j + 1) (u16 (UINT16_TO_LE en j))) (zrep (N * 8) 0)) (base 8).
Proof.
  eapply (wp_for_step (fun k temp => mat 8 temp (init_f k)) 0 N 8 (N / 8)); try dlia.
  - rewrite (Z.mul_comm N 8). eapply mat_ext; [|apply mat_zero; lia]. intros; unfold init_f.
    destruct (Z.ltb_spec j (8 * 0)); [lia|now rewrite andb_false_r].
  - intros k temp Hk HM. assert (Hk8 : 8 * k + 8 <= N) by dlia. rewrite !u16_TO_LE by lia.
    apply wp_bind; wr1 0 (8 * k + 1); intros t1 H1. apply wp_bind; wr1 1 (8 * k + 1); intros t2 H2.
    apply wp_bind; wr1 2 (8 * k + 1); intros t3 H3. apply wp_bind; wr1 3 (8 * k + 1); intros t4 H4.
    apply wp_bind; wr1 4 (8 * k + 1); intros t5 H5. apply wp_bind; wr1 5 (8 * k + 1); intros t6 H6.
    apply wp_bind; wr1 6 (8 * k + 1); intros t7 H7. wr1 7 (8 * k + 1); intros t8 H8.
    eapply mat_ext; [|exact H8]. intros q j Hq Hj; unfold init_f; clear - Hq Hj Hk8 Hk.
    replace (0 + k * 8) with (8 * k) by lia.
    destruct (Z.eq_dec j (8 * k + 1)) as [->|Hne].
    + replace ((8 * k + 1) mod 8) with 1 by dlia. replace (8 * k + 1 - 1) with (8 * k) by lia.
      unfold upd2; rewrite !Z.eqb_refl, !andb_true_r. cbn [andb].
      destruct (Z.ltb_spec (8 * k + 1) (8 * (k + 1))); [|lia].
      repeat match goal with |- context [?a =? ?b] => destruct (Z.eqb_spec a b); [reflexivity|] end. lia.
    + unfold upd2. destruct (Z.eqb_spec j (8 * k + 1)); [contradiction|]. rewrite !andb_false_r.
      destruct (Z.eqb_spec (j mod 8) 1); [|reflexivity]; cbn [andb].
      destruct (Z.ltb_spec j (8 * k)), (Z.ltb_spec j (8 * (k + 1))); try reflexivity; dlia.
  - intros temp HM; exists (init_f (N / 8)); split; [exact HM|]. intros q j Hq Hj _; unfold init_f.
    destruct (j mod 8 =? 1); [|reflexivity]. destruct (Z.ltb_spec j (8 * (N / 8))); [reflexivity|dlia].
Qed.

(** Row numbers are written over a template; what was there before is irrelevant. *)
Definition row_f (f : Z -> Z -> Z) (i k : Z) : Z -> Z -> Z :=
  fun q j => if (j mod 8 =? 0) && (j <? 8 * k) then UINT16_TO_LE en (i + q) else f q j.
Lemma row_f_tmpl R i f temp :
  (forall q j, 0 <= q < R -> 0 <= j < N -> j mod 8 <> 0 ->
      f q j = if j mod 8 =? 1 then UINT16_TO_LE en (j - 1) else 0) ->
  mat R temp (row_f f i (N / 8)) -> tmpl R i temp.
Proof.
  intros Hf HM; apply tmpl_mat; eapply mat_ext; [|exact HM].
  intros q j Hq Hj; unfold row_f, tword.
  destruct (Z.eqb_spec (j mod 8) 0); cbn [andb].
  - destruct (Z.ltb_spec j (8 * (N / 8))); [reflexivity|dlia].
  - apply Hf; auto.
Qed.
Lemma as_rows_loop_wp i temp : 0 <= i -> i + 4 <= N -> base 4 temp ->
  wp (for_step 0 N STRIPE (fun j temp =>
              temp <- wr temp (j + 0 * N) (u16 (UINT16_TO_LE en (i + 0))) ;;
              temp <- wr temp (j + 1 * N) (u16 (UINT16_TO_LE en (i + 1))) ;;
              temp <- wr temp (j + 2 * N) (u16 (UINT16_TO_LE en (i + 2))) ;;
              wr temp (j + 3 * N) (u16 (UINT16_TO_LE en (i + 3)))) temp) (tmpl 4 i).
Proof.
  intros Hi HiN (f & HM0 & Hf).
  eapply (wp_for_step (fun k temp => mat 4 temp (row_f f i k)) 0 N 8 (N / 8)); try dlia.
  - eapply mat_ext; [|exact HM0]. intros; unfold row_f.
    destruct (Z.ltb_spec j (8 * 0)); [lia|now rewrite andb_false_r].
  - intros k t Hk HM. assert (Hk8 : 8 * k + 8 <= N) by dlia. rewrite !u16_TO_LE by lia.
    apply wp_bind; wr1 0 (8 * k); intros t1 H1. apply wp_bind; wr1 1 (8 * k); intros t2 H2.
    apply wp_bind; wr1 2 (8 * k); intros t3 H3. wr1 3 (8 * k); intros t4 H4.
    eapply mat_ext; [|exact H4]. intros q j Hq Hj; unfold row_f; clear - Hq Hj Hk8 Hk.
    destruct (Z.eq_dec j (8 * k)) as [->|Hne].
    + replace ((8 * k) mod 8) with 0 by dlia.
      unfold upd2; rewrite !Z.eqb_refl, !andb_true_r. cbn [andb].
      destruct (Z.ltb_spec (8 * k) (8 * (k + 1))); [|lia].
      repeat match goal with |- context [?a =? ?b] => destruct (Z.eqb_spec a b); [subst; reflexivity|] end. lia.
    + unfold upd2. destruct (Z.eqb_spec j (8 * k)); [contradiction|]. rewrite !andb_false_r.
      destruct (Z.eqb_spec (j mod 8) 0); [|reflexivity]; cbn [andb].
      destruct (Z.ltb_spec j (8 * k)), (Z.ltb_spec j (8 * (k + 1))); try reflexivity; dlia.
  - intros t HM; eapply row_f_tmpl; [exact Hf|exact HM].
Qed.
Lemma sa_rows_loop_wp i temp : 0 <= i -> i + 8 <= N -> base 8 temp ->
  wp (for_ 0 8 (fun q Ainit =>
               for_step 0 N 8 (fun p Ainit =>
                 wr Ainit (q * N + p) (u16 (UINT16_TO_LE en (i + q)))) Ainit) temp) (tmpl 8 i).
Proof.
  intros Hi HiN (f & HM0 & Hf).
  apply (wp_for (fun q t => mat 8 t (fun q' j => if q' <? q then row_f f i (N / 8) q' j else f q' j))).
  - lia.
  - eapply mat_ext; [|exact HM0]. intros; destruct (Z.ltb_spec q 0); [lia|reflexivity].
  - intros q t Hq HM.
    eapply (wp_for_step (fun k t => mat 8 t (fun q' j => if q' <? q then row_f f i (N / 8) q' j
       else if q' =? q then row_f f i k q' j else f q' j)) 0 N 8 (N / 8)); try dlia.
    + eapply mat_ext; [|exact HM]. intros; cbv beta. destruct (q0 <? q); [reflexivity|].
      destruct (q0 =? q); [|reflexivity]. unfold row_f.
      destruct (Z.ltb_spec j (8 * 0)); [lia|now rewrite andb_false_r].
    + clear t HM. intros k t Hk HM. assert (Hk8 : 8 * k + 8 <= N) by dlia. rewrite !u16_TO_LE by lia.
      wr1 q (8 * k); intros t1 H1.
      eapply mat_ext; [|exact H1]. intros q' j Hq' Hj; unfold upd2; clear - Hq Hq' Hj Hk8 Hk.
      destruct (Z.ltb_spec q' q).
      { destruct (Z.eqb_spec q' q); [lia|reflexivity]. }
      destruct (Z.eqb_spec q' q); [subst q'; cbn [andb]|reflexivity]. unfold row_f.
      destruct (Z.eqb_spec j (8 * k)) as [->|Hne].
      * replace ((8 * k) mod 8) with 0 by dlia.
        destruct (Z.ltb_spec (8 * k) (8 * (k + 1))); [reflexivity|lia].
      * destruct (Z.eqb_spec (j mod 8) 0); [|reflexivity]; cbn [andb].
        destruct (Z.ltb_spec j (8 * k)), (Z.ltb_spec j (8 * (k + 1))); try reflexivity; dlia.
    + intros t' HM'; eapply mat_ext; [|exact HM']. intros q' j Hq' Hj; cbv beta.
      destruct (Z.ltb_spec q' q), (Z.ltb_spec q' (q + 1)); try lia; try reflexivity.
      * destruct (Z.eqb_spec q' q); [reflexivity|lia].
      * destruct (Z.eqb_spec q' q); [lia|reflexivity].
  - intros t HM; eapply row_f_tmpl; [exact Hf|]. eapply mat_ext; [|exact HM].
    intros q j Hq Hj; cbv beta; destruct (Z.ltb_spec q 8); [reflexivity|lia].
Qed.
(** The reference fills the template for all of A in one go. *)
Lemma ref_loop_wp :
  wp (for_ 0 N (fun i A =>
           for_step 0 N STRIPE (fun j A =>
             A <- wr A (i * N + j) (u16 (UINT16_TO_LE en i)) ;;
             wr A (i * N + j + 1) (u16 (UINT16_TO_LE en j))) A) (zrep (N * N) 0)) (tmpl N 0).
Proof.
  set (g := fun k q j => if j <? 8 * k then tword 0 q j else 0).
  apply (wp_for (fun i t => mat N t (fun q j => if q <? i then tword 0 q j else 0))).
  - lia.
  - eapply mat_ext; [|apply mat_zero; lia]. intros; cbv beta; destruct (Z.ltb_spec q 0); [lia|reflexivity].
  - intros i t Hi HM.
    eapply (wp_for_step (fun k t => mat N t (fun q j => if q <? i then tword 0 q j
       else if q =? i then g k q j else 0)) 0 N 8 (N / 8)); try dlia.
    + eapply mat_ext; [|exact HM]. intros; cbv beta. destruct (q <? i); [reflexivity|].
      destruct (q =? i); [|reflexivity]. unfold g. destruct (Z.ltb_spec j (8 * 0)); [lia|reflexivity].
    + clear t HM. intros k t Hk HM. assert (Hk8 : 8 * k + 8 <= N) by dlia. rewrite !u16_TO_LE by lia.
      apply wp_bind; wr1 i (8 * k); intros t1 H1. wr1 i (8 * k + 1); intros t2 H2.
      eapply mat_ext; [|exact H2]. intros q' j Hq' Hj; unfold upd2; clear - Hi Hq' Hj Hk8 Hk.
      destruct (Z.ltb_spec q' i).
      { destruct (Z.eqb_spec q' i); [lia|reflexivity]. }
      destruct (Z.eqb_spec q' i); [subst q'; cbn [andb]|reflexivity]. unfold g, tword.
      replace (0 + k * 8) with (8 * k) by lia. rewrite Z.add_0_l.
      destruct (Z.eqb_spec j (8 * k + 1)) as [->|Hne].
      { replace ((8 * k + 1) mod 8) with 1 by dlia.
        destruct (Z.ltb_spec (8 * k + 1) (8 * (k + 1))); [|lia]. replace (8 * k + 1 - 1) with (8 * k) by lia; reflexivity. }
      destruct (Z.eqb_spec j (8 * k)) as [->|Hne'].
      { replace ((8 * k) mod 8) with 0 by dlia.
        destruct (Z.ltb_spec (8 * k) (8 * (k + 1))); [reflexivity|lia]. }
      destruct (Z.ltb_spec j (8 * k)), (Z.ltb_spec j (8 * (k + 1))); try reflexivity; try lia.
      destruct (Z.eqb_spec (j mod 8) 0); [dlia|]. destruct (Z.eqb_spec (j mod 8) 1); [dlia|reflexivity].
    + intros t' HM'; eapply mat_ext; [|exact HM']. intros q' j Hq' Hj; cbv beta.
      destruct (Z.ltb_spec q' i), (Z.ltb_spec q' (i + 1)); try lia; try reflexivity.
      * destruct (Z.eqb_spec q' i); [|lia]. unfold g. destruct (Z.ltb_spec j (8 * (N / 8))); [reflexivity|dlia].
      * destruct (Z.eqb_spec q' i); [lia|reflexivity].
  - intros t HM; eapply mat_ext; [|exact HM].
    intros q j Hq Hj; cbv beta; destruct (Z.ltb_spec q N); [reflexivity|lia].
Qed.

Lemma load_wp im : wp (AES128_load_schedule im seedA (uninit 176)) (sched_upto 4 10 seedA (16 * (10 + 1))).
Proof.
  assert (HNk : 4 = 4 /\ 10 = 10 \/ 4 = 8 /\ 10 = 14) by auto.
  destruct im; [apply load_schedule_c_wp|apply aes128_load_schedule_ni_wp|apply evp_init_wp]; auto.
Qed.
Lemma free_wp sch (Q : list Z -> Prop) : zlen sch = 176 -> (forall s, Q s) -> wp (AES_free_schedule sch 11) Q.
Proof. intros; unfold AES_free_schedule; apply wp_memset; try lia; auto. Qed.

(* ------------------------------------------------------------------ *)
(** ** SHAKE *)
Definition sep_ok (sep : list Z) : Prop := exists x, zlen x = 2 /\ sep = x ++ seedA.
Definition row_bytes (i : Z) : list Z := SHAKE128 (le16 i ++ seedA) (2 * N).
Lemma sep_le16_ok i : bytes_ok (le16 i ++ seedA) /\ zlen (le16 i ++ seedA) = 18.
Proof. split; [apply inrange_app; [apply le16_ok|exact Hseedb]|rewrite zlen_app, Hseed; reflexivity]. Qed.
Lemma row_bytes_ok i : zlen (row_bytes i) = 2 * N /\ bytes_ok (row_bytes i).
Proof.
  unfold row_bytes; rewrite SHAKE128_r; destruct (sep_le16_ok i).
  split; [apply zlen_SHAKE_r; auto; lia|apply SHAKE_r_ok; auto; lia].
Qed.
Lemma sep_init_wp : wp (memcpy (uninit 18) 2 seedA 0 SEEDA) sep_ok.
Proof.
  unfold SEEDA; apply wp_memcpy; try lia; [change (zlen (uninit 18)) with 18; lia|].
  exists (zrep 2 undef); split; [reflexivity|].
  rewrite zslice_all_n by lia. unfold zsplice.
  replace (length seedA) with 16%nat by (unfold zlen in Hseed; lia).
  change (skipn (Z.to_nat 2 + 16) (uninit 18)) with (@nil Z); rewrite app_nil_r; reflexivity.
Qed.
Lemma set_origin_wp sep i : 0 <= i < 65536 -> sep_ok sep ->
  wp (set_origin en sep i) (fun s => s = le16 i ++ seedA).
Proof.
  intros Hi (x & Lx & ->); unfold set_origin; rewrite le16_bytes by auto.
  apply wp_put; [lia|rewrite zlen_app; change (zlen (le16 i)) with 2; lia|].
  unfold zsplice; cbn [Z.to_nat firstn app]. change (zlen (le16 i)) with 2.
  destruct x as [|x0 [|x1 [|]]]; try (vm_compute in Lx; discriminate).
  - reflexivity.
  - exfalso; rewrite !zlen_cons in Lx; pose proof (zlen_nonneg l); lia.
Qed.
Lemma sep_of_le16 i : sep_ok (le16 i ++ seedA).
Proof. exists (le16 i); split; reflexivity. Qed.
Lemma row_words_spec i j : 0 <= j < N ->
  LE_TO_UINT16 en (znth (words_of_bytes en (row_bytes i)) j) = A_shake N seedA i j.
Proof.
  intros Hj; destruct (row_bytes_ok i) as (L & B). apply word16_words; [exact B|]. rewrite L; dlia.
Qed.
Lemma row_words_ok i : zlen (words_of_bytes en (row_bytes i)) = N /\ u16s_ok (words_of_bytes en (row_bytes i)).
Proof.
  destruct (row_bytes_ok i) as (L & B); split; [rewrite zlen_words, L; dlia|apply inrange_words, B].
Qed.
Lemma shake_row_wp R A f row i (Q : list Z -> Prop) : mat R A f -> 0 <= row < R ->
  (forall A', mat R A' (fun q j => if q =? row then znth (words_of_bytes en (row_bytes i)) j else f q j) -> Q A') ->
  wp (shake_row en N A row (le16 i ++ seedA)) Q.
Proof.
  intros HM Hr HQ; pose proof HM as (L & U & _).
  pose proof (idx_lt R row 0 Hr ltac:(lia)); pose proof (idx_lt R row (N - 1) Hr ltac:(lia)).
  unfold shake_row; apply wp_bind, wp_sub; try lia.
  destruct (sep_le16_ok i) as (B18 & L18).
  apply wp_bind; eapply wp_mono.
  { unfold shake128; rewrite <- L18. apply shake_wp; auto.
    rewrite zlen_bytes, zlen_zslice by lia; reflexivity. }
  intros o ->; rewrite <- SHAKE128_r. fold (row_bytes i).
  destruct (row_words_ok i). eapply put_row; eauto.
Qed.
Lemma shake_4rows_wp R A f r0 i0 i1 i2 i3 (Q : list Z -> Prop) : mat R A f -> 0 <= r0 -> r0 + 4 <= R ->
  (forall A', mat R A' (fun q j =>
      if q =? r0 + 3 then znth (words_of_bytes en (row_bytes i3)) j else
      if q =? r0 + 2 then znth (words_of_bytes en (row_bytes i2)) j else
      if q =? r0 + 1 then znth (words_of_bytes en (row_bytes i1)) j else
      if q =? r0 + 0 then znth (words_of_bytes en (row_bytes i0)) j else f q j) -> Q A') ->
  wp (shake_4rows true en N A r0 (le16 i0 ++ seedA) (le16 i1 ++ seedA) (le16 i2 ++ seedA) (le16 i3 ++ seedA)) Q.
Proof.
  intros HM H0 H4 HQ; pose proof HM as (L & U & _).
  assert (Hr : forall q, 0 <= q < 4 -> 0 <= (r0 + q) * N /\ (r0 + q) * N + N <= zlen A).
  { intros q Hq; pose proof (idx_lt R (r0 + q) 0 ltac:(lia) ltac:(lia)).
    pose proof (idx_lt R (r0 + q) (N - 1) ltac:(lia) ltac:(lia)). lia. }
  unfold shake_4rows.
  pose proof (Hr 0 ltac:(lia)); pose proof (Hr 1 ltac:(lia)); pose proof (Hr 2 ltac:(lia)); pose proof (Hr 3 ltac:(lia)).
  apply wp_bind, wp_sub; try lia. apply wp_bind, wp_sub; try lia.
  apply wp_bind, wp_sub; try lia. apply wp_bind, wp_sub; try lia.
  apply wp_bind; eapply wp_mono.
  { apply shake128_4x_wp; [lia|lia|]. intros l Hl.
    assert (El : l = 0 \/ l = 1 \/ l = 2 \/ l = 3) by lia.
    destruct El as [-> | [-> | [-> | -> ]]]; cbv [sel4 Z.eqb Pos.eqb]; rewrite zlen_bytes, zlen_zslice by lia;
      (split; [reflexivity|]); match goal with |- context [le16 ?i ++ _] => destruct (sep_le16_ok i); auto end. }
  intros o ->. fold (row_bytes i0) (row_bytes i1) (row_bytes i2) (row_bytes i3).
  destruct (row_words_ok i0), (row_words_ok i1), (row_words_ok i2), (row_words_ok i3).
  apply wp_bind; eapply (put_row _ _ _ _ (r0 + 0)); eauto; [lia|]; intros A1 M1.
  apply wp_bind; eapply (put_row _ _ _ _ (r0 + 1)); eauto; [lia|]; intros A2 M2.
  apply wp_bind; eapply (put_row _ _ _ _ (r0 + 2)); eauto; [lia|]; intros A3 M3.
  eapply (put_row _ _ _ _ (r0 + 3)); eauto; lia.
Qed.
Lemma shake_rows_wp R i A sep : 0 <= i -> 0 <= R -> i + R <= N -> zlen A = R * N -> u16s_ok A -> sep_ok sep ->
  wp (shake_rows en N R i A sep) (fun r => rows_ok GenSHAKE R i (fst r) /\ sep_ok (snd r)).
Proof.
  intros Hi HR HiR L U Hs; unfold shake_rows.
  apply (wp_for (fun q st => sep_ok (snd st) /\
     mat R (fst st) (fun q' j => if q' <? q then znth (words_of_bytes en (row_bytes (i + q'))) j else znth (fst st) (q' * N + j)))).
  - lia.
  - cbn [fst snd]; split; [exact Hs|]. eapply mat_ext; [|apply mat_intro; auto].
    intros; cbv beta; destruct (Z.ltb_spec q 0); [lia|reflexivity].
  - intros q (A1, sep1) Hq (Hs1 & HM1); cbn [fst snd] in *.
    apply wp_bind; eapply wp_mono; [apply set_origin_wp; [lia|exact Hs1]|]. intros s ->.
    apply wp_bind; eapply shake_row_wp; [exact HM1|lia|]. intros A2 HM2.
    apply wp_ret; cbn [fst snd]; split; [apply sep_of_le16|].
    pose proof HM2 as (L2 & U2 & E2). split; [exact L2|split; [exact U2|]].
    intros q' j Hq' Hj. destruct (Z.ltb_spec q' (q + 1)); [|reflexivity].
    rewrite E2 by auto. destruct (Z.eqb_spec q' q) as [->|]; [reflexivity|].
    destruct (Z.ltb_spec q' q); [reflexivity|lia].
  - intros (A1, sep1) (Hs1 & (L1 & U1 & E1)); cbn [fst snd] in *. split; [|exact Hs1].
    split; [exact L1|split; [exact U1|]]. intros q j Hq Hj. rewrite E1 by auto.
    destruct (Z.ltb_spec q R); [|lia]. apply row_words_spec; exact Hj.
Qed.

(* ------------------------------------------------------------------ *)
(** ** The generators *)
Lemma le_to_host_wp A n : zlen A = n -> u16s_ok A ->
  wp (le_to_host en A n) (fun A' => A' = map (LE_TO_UINT16 en) A).
Proof.
  intros L U; unfold le_to_host; pose proof (zlen_nonneg A).
  apply (wp_for (fun i A' => zlen A' = n /\ forall j, 0 <= j < n ->
     znth A' j = if j <? i then LE_TO_UINT16 en (znth A j) else znth A j)).
  - lia.
  - split; [exact L|]; intros j Hj; destruct (Z.ltb_spec j 0); [lia|reflexivity].
  - intros i A' Hi (L' & E).
    assert (Hv : znth A' i = znth A i) by (rewrite E by lia; rewrite Z.ltb_irrefl; reflexivity).
    assert (Hr : 0 <= znth A i < 65536) by (apply inrange_znth; [exact U|lia]).
    apply wp_bind, wp_rd; [lia|lia|]. apply wp_wr; [lia|]. rewrite Hv.
    unfold u16; rewrite Z.mod_small by (apply LE_TO_UINT16_range; lia).
    split; [rewrite zlen_zset; exact L'|]. intros j Hj; rewrite znth_zset by lia.
    destruct (Z.eqb_spec i j) as [->|].
    + destruct (Z.ltb_spec j (j + 1)); [reflexivity|lia].
    + rewrite E by lia. destruct (Z.ltb_spec j i), (Z.ltb_spec j (i + 1)); try lia; reflexivity.
  - intros A' (L' & E); apply list_ext; [rewrite zlen_map; lia|].
    intros j Hj; rewrite E, znth_map by lia. destruct (Z.ltb_spec j n); [reflexivity|lia].
Qed.
Lemma rows_host g R i A : rows_ok g R i A -> mat R (map (LE_TO_UINT16 en) A) (fun q j => A_spec g N seedA (i + q) j).
Proof.
  intros (L & U & E); split; [rewrite zlen_map; exact L|split].
  - apply inrange_intro; rewrite zlen_map; intros k Hk; rewrite znth_map by exact Hk.
    apply LE_TO_UINT16_range, inrange_znth; auto.
  - intros q j Hq Hj; rewrite znth_map by (rewrite L; apply idx_lt; auto). apply E; auto.
Qed.

Lemma ref_genA_wp g im : wp (ref_genA en g im N seedA) (fun A => mat N A (A_spec g N seedA)).
Proof.
  assert (HNk : 4 = 4 /\ 10 = 10 \/ 4 = 8 /\ 10 = 14) by auto.
  unfold ref_genA; apply wp_bind.
  eapply wp_mono with (P := rows_ok g N 0).
  - destruct g.
    + apply wp_bind; eapply wp_mono; [apply ref_loop_wp|]. intros A HT.
      apply wp_bind; eapply wp_mono; [apply load_wp|]. intros sch Hs.
      destruct (aes_rows_ok N 0 A HT ltac:(lia) ltac:(lia) ltac:(lia)) as (_ & _ & HR).
      replace (N * N * 2) with (16 * (N * (N / 8))) by (replace (N * N) with (N * (8 * (N / 8))) by (f_equal; dlia); lia).
      apply wp_bind; eapply wp_mono.
      { apply (ECB_inplace_wp 4 10 seedA HNk Hseed Hseedb); auto.
        - apply Z.mul_nonneg_nonneg; [lia|dlia].
        - rewrite zlen_bytes. destruct HT as (-> & _).
          replace (N * N) with (N * (8 * (N / 8))) by (f_equal; dlia); lia.
        - apply inrange_bytes, HT. }
      intros b ->. apply wp_bind, free_wp; [apply Hs|]. intros _. apply wp_ret; exact HR.
    + apply wp_bind; eapply wp_mono; [apply sep_init_wp|]. intros sep Hs.
      pose proof (mat_zero N ltac:(lia)) as (L0 & U0 & _).
      apply wp_bind.
      assert (Eb : forall i A sp, 0 <= i < N -> 
         (sep0 <- set_origin en sp (u16 i) ;; A0 <- shake_row en N A i sep0 ;; ret (A0, sep0)) =
         (sep0 <- set_origin en sp (0 + i) ;; A0 <- shake_row en N A i sep0 ;; ret (A0, sep0))).
      { intros i A sp Hi. unfold u16; rewrite Z.mod_small by lia. reflexivity. }
      apply (wp_for (fun q st => sep_ok (snd st) /\ mat N (fst st) (fun q' j => if q' <? q then
         znth (words_of_bytes en (row_bytes (0 + q'))) j else znth (fst st) (q' * N + j)))).
      * lia.
      * cbn [fst snd]; split; [exact Hs|]. eapply mat_ext; [|apply mat_intro; auto].
        intros; cbv beta; destruct (Z.ltb_spec q 0); [lia|reflexivity].
      * intros q (A1, sep1) Hq (Hs1 & HM1); cbn [fst snd] in *.
        rewrite Eb by lia.
        apply wp_bind; eapply wp_mono; [apply set_origin_wp; [lia|exact Hs1]|]. intros s ->.
        apply wp_bind; eapply shake_row_wp; [exact HM1|lia|]. intros A2 HM2.
        apply wp_ret; cbn [fst snd]; split; [apply sep_of_le16|].
        pose proof HM2 as (L2 & U2 & E2). split; [exact L2|split; [exact U2|]].
        intros q' j Hq' Hj. destruct (Z.ltb_spec q' (q + 1)); [|reflexivity].
        rewrite E2 by auto. destruct (Z.eqb_spec q' q) as [->|]; [reflexivity|].
        destruct (Z.ltb_spec q' q); [reflexivity|lia].
      * intros (A1, sep1) (Hs1 & (L1 & U1 & E1)); cbn [fst snd] in *. apply wp_ret.
        split; [exact L1|split; [exact U1|]]. intros q j Hq Hj. rewrite E1 by auto.
        destruct (Z.ltb_spec q N); [|lia]. apply row_words_spec; exact Hj.
  - intros A HA; pose proof HA as (L & U & _).
    eapply wp_mono; [apply le_to_host_wp; auto|]. intros A' ->. exact (rows_host g N 0 A HA).
Qed.

Definition gst_ok (g : genA) (R : Z) (st : gst) : Prop :=
  match st with
  | GsAES sch temp => g = GenAES /\ sched_upto 4 10 seedA (16 * (10 + 1)) sch /\ base R temp
  | GsSHAKE sep => g = GenSHAKE /\ sep_ok sep
  | GsSHAKE4 s0 s1 s2 s3 => g = GenSHAKE /\ sep_ok s0 /\ sep_ok s1 /\ sep_ok s2 /\ sep_ok s3
  end.
Ltac seps := apply wp_bind; eapply wp_mono; [apply sep_init_wp|]; intros ? ?.
Lemma as_init_wp g im avx : wp (as_init en g im avx N seedA) (gst_ok g 4).
Proof.
  unfold as_init; destruct g; [|destruct avx].
  - apply wp_bind; eapply wp_mono; [apply load_wp|]. intros sch Hs.
    apply wp_bind; eapply wp_mono; [apply as_init_loop_wp|]. intros t Ht. apply wp_ret; cbn; auto.
  - seps; seps; seps; seps; apply wp_ret; cbn; auto.
  - seps; apply wp_ret; cbn; auto.
Qed.
Lemma sa_init_wp g im avx : wp (sa_init en g im avx N seedA) (gst_ok g 8).
Proof.
  unfold sa_init; destruct g; [|destruct avx].
  - apply wp_bind; eapply wp_mono; [apply load_wp|]. intros sch Hs.
    apply wp_bind; eapply wp_mono; [apply sa_init_loop_wp|]. intros t Ht. apply wp_ret; cbn; auto.
  - seps; seps; seps; seps; apply wp_ret; cbn; auto.
  - seps; apply wp_ret; cbn; auto.
Qed.
Lemma gst_free_wp g R st (Q : unit -> Prop) : gst_ok g R st -> Q tt -> wp (gst_free st) Q.
Proof.
  intros H HQ; destruct st; cbn in *; [|apply wp_ret; auto|apply wp_ret; auto].
  apply wp_bind, free_wp; [apply H|]. intros _; apply wp_ret; auto.
Qed.
Ltac origin := apply wp_bind; eapply wp_mono; [apply set_origin_wp; [lia|first [eassumption|apply sep_of_le16]]|]; intros ? ->.
Lemma as_rows_wp g im i a_row st : 0 <= i -> i + 4 <= N -> zlen a_row = 4 * N -> u16s_ok a_row ->
  gst_ok g 4 st ->
  wp (as_rows en im N i a_row st) (fun r => rows_ok g 4 i (fst r) /\ gst_ok g 4 (snd r)).
Proof.
  intros Hi HiN L U Hst; assert (HNk : 4 = 4 /\ 10 = 10 \/ 4 = 8 /\ 10 = 14) by auto.
  destruct st as [sch temp|sep|s0 s1 s2 s3]; cbn in Hst; unfold as_rows.
  - destruct Hst as (-> & Hs & Hb).
    apply wp_bind; eapply wp_mono; [apply as_rows_loop_wp; auto|]. intros t HT.
    destruct (aes_rows_ok 4 i t HT Hi ltac:(lia) HiN) as (_ & _ & HR).
    replace (4 * N * 2) with (16 * (4 * (N / 8))) by dlia.
    apply wp_bind; eapply wp_mono.
    { apply (ECB_wp 4 10 seedA HNk Hseed Hseedb); auto.
      - dlia.
      - rewrite zlen_bytes. destruct HT as (-> & _). dlia.
      - apply inrange_bytes, HT.
      - rewrite zlen_bytes, L; dlia. }
    intros b ->. apply wp_ret; cbn [fst snd]. split; [exact HR|].
    cbn; split; [reflexivity|split; [exact Hs|]]. eapply tmpl_base; exact HT.
  - destruct Hst as (-> & Hs).
    apply wp_bind; eapply wp_mono; [apply shake_rows_wp; eauto; lia|].
    intros (A1, s1) (H1 & H2); apply wp_ret; cbn in *; auto.
  - destruct Hst as (-> & H0 & H1 & H2 & H3).
    origin; origin; origin; origin.
    apply wp_bind; eapply shake_4rows_wp; [apply mat_intro; [exact L|exact U]|lia|lia|].
    intros A' (L' & U' & E'); apply wp_ret; cbn [fst snd gst_ok].
    split; [|repeat split; apply sep_of_le16].
    split; [exact L'|split; [exact U'|]]. intros q j Hq Hj; rewrite E' by auto.
    assert (Eq : q = 0 \/ q = 1 \/ q = 2 \/ q = 3) by lia.
    destruct Eq as [-> | [-> | [-> | -> ]]]; cbn [Z.eqb Z.add Pos.eqb Pos.add]; apply row_words_spec; exact Hj.
Qed.
Lemma sa_rows_wp g im i A st : 0 <= i -> i + 8 <= N -> zlen A = 8 * N -> u16s_ok A ->
  gst_ok g 8 st ->
  wp (sa_rows en im N i A st) (fun r => rows_ok g 8 i (fst r) /\ gst_ok g 8 (snd r)).
Proof.
  intros Hi HiN L U Hst; assert (HNk : 4 = 4 /\ 10 = 10 \/ 4 = 8 /\ 10 = 14) by auto.
  destruct st as [sch temp|sep|s0 s1 s2 s3]; cbn in Hst; unfold sa_rows.
  - destruct Hst as (-> & Hs & Hb).
    apply wp_bind; eapply wp_mono; [apply sa_rows_loop_wp; auto|]. intros t HT.
    destruct (aes_rows_ok 8 i t HT Hi ltac:(lia) HiN) as (_ & _ & HR).
    replace (8 * N * 2) with (16 * (8 * (N / 8))) by dlia.
    apply wp_bind; eapply wp_mono.
    { apply (ECB_wp 4 10 seedA HNk Hseed Hseedb); auto.
      - dlia.
      - rewrite zlen_bytes. destruct HT as (-> & _). dlia.
      - apply inrange_bytes, HT.
      - rewrite zlen_bytes, L; dlia. }
    intros b ->. apply wp_ret; cbn [fst snd]. split; [exact HR|].
    cbn; split; [reflexivity|split; [exact Hs|]]. eapply tmpl_base; exact HT.
  - destruct Hst as (-> & Hs).
    apply wp_bind; eapply wp_mono; [apply shake_rows_wp; eauto; lia|].
    intros (A1, s1) (H1 & H2); apply wp_ret; cbn in *; auto.
  - destruct Hst as (-> & H0 & H1 & H2 & H3).
    origin; origin; origin; origin.
    apply wp_bind; eapply shake_4rows_wp; [apply mat_intro; [exact L|exact U]|lia|lia|]. intros A1 M1.
    origin; origin; origin; origin.
    apply wp_bind; eapply shake_4rows_wp; [exact M1|lia|lia|].
    intros A' (L' & U' & E'); apply wp_ret; cbn [fst snd gst_ok].
    split; [|repeat split; apply sep_of_le16].
    split; [exact L'|split; [exact U'|]]. intros q j Hq Hj; rewrite E' by auto.
    assert (Eq : q = 0 \/ q = 1 \/ q = 2 \/ q = 3 \/ q = 4 \/ q = 5 \/ q = 6 \/ q = 7) by lia.
    destruct Eq as [-> | [-> | [-> | [-> | [-> | [-> | [-> | -> ]]]]]]];
      cbn [Z.eqb Z.add Pos.eqb Pos.add Pos.succ]; apply row_words_spec; exact Hj.
Qed.
End Gen.
