(** Key expansion, the cipher and the ECB loops; aes_c.c and aes_ni.c. *)
From Verif Require Import CSem Params Aes AesSpec KeccakProofs AesProofs.

(* ------------------------------------------------------------------ *)
(** ** The recurrence of the key expansion, byte by byte *)
Definition kbyte (w : list (list Z)) (j : Z) : Z := znth (word w (j / 4)) (j mod 4).

Lemma expand_S n Nk : forall w, expand (S n) Nk w = expand n Nk w ++ [next_word Nk (expand n Nk w)].
Proof.
  induction n as [|n IH]; intros w; [reflexivity|].
  change (expand (S (S n)) Nk w) with (expand (S n) Nk (w ++ [next_word Nk w])).
  rewrite IH; reflexivity.
Qed.
Lemma zlen_expand n Nk w : zlen (expand n Nk w) = zlen w + Z.of_nat n.
Proof.
  induction n as [|n IH]; [cbn; lia|].
  rewrite expand_S, zlen_app, IH; unfold zlen at 2; cbn [length]; lia.
Qed.
Lemma word_app1 w v i : 0 <= i < zlen w -> word (w ++ v) i = word w i.
Proof. intros H; unfold word; apply app_nth1; unfold zlen in H; lia. Qed.
Lemma word_app2 w v : word (w ++ [v]) (zlen w) = v.
Proof.
  unfold word, zlen; rewrite Nat2Z.id, app_nth2, Nat.sub_diag by lia; reflexivity.
Qed.
(** Words are stable once produced. *)
Lemma word_expand_stable n m Nk w i : 0 <= i < zlen w + Z.of_nat n ->
  word (expand (n + m) Nk w) i = word (expand n Nk w) i.
Proof.
  intros Hi; induction m as [|m IH]; [now rewrite Nat.add_0_r|].
  rewrite Nat.add_succ_r, expand_S, word_app1, IH; [reflexivity|].
  rewrite zlen_expand; lia.
Qed.

Section Key.
Variables (Nk Nr : Z) (key : list Z).
Hypothesis HN : Nk = 4 /\ Nr = 10 \/ Nk = 8 /\ Nr = 14.
Hypothesis Hlen : zlen key = 4 * Nk.
Hypothesis Hkey : bytes_ok key.
Let W := KeyExpansion Nk Nr key.
Let w0 := ztab Nk (fun i => zslice key (4 * i) 4).

Lemma zlen_w0 : zlen w0 = Nk.
Proof. unfold w0; apply zlen_ztab; lia. Qed.
Lemma word_W_lo i : 0 <= i < Nk -> word W i = zslice key (4 * i) 4.
Proof.
  intros Hi; unfold W, KeyExpansion; fold w0.
  change (Z.to_nat (4 * (Nr + 1) - Nk)) with (0 + Z.to_nat (4 * (Nr + 1) - Nk))%nat.
  rewrite (word_expand_stable 0 _ Nk w0 i) by (rewrite zlen_w0; lia).
  cbn [expand]; unfold w0, word, ztab.
  rewrite (nth_indep _ [] ((fun i => zslice key (4 * i) 4) 0)).
  - rewrite (map_nth (fun i => zslice key (4 * i) 4)), zseq_nth by lia; reflexivity.
  - rewrite map_length; unfold zseq; rewrite map_length, seq_length; lia.
Qed.
Lemma word_W_hi i : Nk <= i < 4 * (Nr + 1) ->
  word W i = xorlist (word W (i - Nk))
    (let temp := word W (i - 1) in
     if i mod Nk =? 0 then xorlist (SubWord (RotWord temp)) (Rcon_spec (i / Nk))
     else if (6 <? Nk) && (i mod Nk =? 4) then SubWord temp else temp).
Proof.
  intros Hi; unfold W, KeyExpansion; fold w0.
  set (n := Z.to_nat (i - Nk)).
  set (T := Z.to_nat (4 * (Nr + 1) - Nk)).
  replace T with (S n + (T - S n))%nat by (unfold n, T; lia).
  rewrite (word_expand_stable (S n)) by (rewrite zlen_w0; unfold n; lia).
  rewrite expand_S.
  assert (Hz : zlen (expand n Nk w0) = i) by (rewrite zlen_expand, zlen_w0; unfold n; lia).
  rewrite <- Hz at 1; rewrite word_app2; unfold next_word; cbv zeta; rewrite Hz.
  replace (S n + (T - S n))%nat with (n + (T - n))%nat by (unfold n, T; lia).
  rewrite !(word_expand_stable n) by (rewrite zlen_w0; unfold n; lia).
  reflexivity.
Qed.
Lemma zlen_W : zlen W = 4 * (Nr + 1).
Proof. unfold W, KeyExpansion; fold w0; rewrite zlen_expand, zlen_w0; lia. Qed.
Local Opaque KeyExpansion Sbox.
Lemma word_W_len i : 0 <= i < 4 * (Nr + 1) -> zlen (word W i) = 4.
Proof.
  intros Hi; remember (Z.to_nat i) as n; revert i Hi Heqn.
  induction n as [n IH] using (well_founded_induction Wf_nat.lt_wf); intros i Hi ->.
  destruct (Z.lt_ge_cases i Nk).
  - rewrite word_W_lo by lia; rewrite zlen_zslice; lia.
  - rewrite word_W_hi by lia; unfold xorlist at 1; rewrite zlen_ztab.
    + apply (IH (Z.to_nat (i - Nk))); lia.
    + apply zlen_nonneg.
Qed.
Lemma znth_xorlist a b i : 0 <= i < zlen a -> znth (xorlist a b) i = Z.lxor (znth a i) (znth b i).
Proof. intros; unfold xorlist; rewrite znth_ztab by assumption; reflexivity. Qed.

Lemma kbyte_lo j : 0 <= j < 4 * Nk -> kbyte W j = znth key j.
Proof.
  intros Hj; unfold kbyte; rewrite word_W_lo by dlia.
  rewrite znth_zslice by (try apply Z.mod_pos_bound; dlia); f_equal; dlia.
Qed.
Definition ktemp (i b : Z) (prev : Z -> Z) : Z :=
  if i mod Nk =? 0 then Z.lxor (Sbox (prev ((b + 1) mod 4))) (if b =? 0 then xpow (Z.to_nat (i / Nk - 1)) else 0)
  else if (6 <? Nk) && (i mod Nk =? 4) then Sbox (prev b) else prev b.
Lemma kbyte_hi i b : Nk <= i < 4 * (Nr + 1) -> 0 <= b < 4 ->
  kbyte W (4 * i + b) =
  Z.lxor (kbyte W (4 * (i - Nk) + b)) (ktemp i b (fun c => kbyte W (4 * (i - 1) + c))).
Proof.
  intros Hi Hb; unfold kbyte at 1.
  replace ((4 * i + b) / 4) with i by dlia; replace ((4 * i + b) mod 4) with b by dlia.
  rewrite word_W_hi by exact Hi.
  assert (K : forall i c, 0 <= c < 4 -> kbyte W (4 * i + c) = znth (word W i) c).
  { intros i' c Hc; unfold kbyte; replace ((4 * i' + c) / 4) with i' by dlia;
    replace ((4 * i' + c) mod 4) with c by dlia; reflexivity. }
  rewrite znth_xorlist by (rewrite word_W_len; lia).
  rewrite K by exact Hb; f_equal; cbv zeta; unfold ktemp.
  pose proof (word_W_len (i - 1) ltac:(lia)) as Hl.
  destruct (Z.eqb_spec (i mod Nk) 0) as [E|E].
  - rewrite znth_xorlist by (unfold SubWord; rewrite zlen_map; unfold RotWord; cbn; lia).
    rewrite K by (apply Z.mod_pos_bound; lia).
    unfold SubWord; rewrite znth_map by (unfold RotWord; cbn; lia).
    assert (Hc : b = 0 \/ b = 1 \/ b = 2 \/ b = 3) by lia.
    unfold RotWord, Rcon_spec; destruct Hc as [->|[->|[->| ->]]]; reflexivity.
  - destruct ((6 <? Nk) && (i mod Nk =? 4)).
    + rewrite K by exact Hb; unfold SubWord; rewrite znth_map by lia; reflexivity.
    + rewrite K by exact Hb; reflexivity.
Qed.
Lemma xpow_byte n : (n < 14)%nat -> byte (xpow n).
Proof.
  intros H; unfold byte.
  do 14 (destruct n as [|n]; [vm_compute; split; [discriminate|reflexivity]|]); lia.
Qed.
Lemma kbyte_byte j : 0 <= j < 16 * (Nr + 1) -> byte (kbyte W j).
Proof.
  intros Hj; remember (Z.to_nat j) as n; revert j Hj Heqn.
  induction n as [n IH] using (well_founded_induction Wf_nat.lt_wf); intros j Hj ->.
  destruct (Z.lt_ge_cases j (4 * Nk)).
  - rewrite kbyte_lo by lia; apply (st_byte key _ Hkey).
  - assert (HB : forall k, 0 <= k < j -> byte (kbyte W k)).
    { intros k Hk; apply (IH (Z.to_nat k)); lia. }
    set (i := j / 4); set (b := j mod 4).
    assert (Ej : j = 4 * i + b) by (unfold i, b; dlia).
    assert (Hb : 0 <= b < 4) by (unfold b; dlia).
    assert (Hi : Nk <= i < 4 * (Nr + 1)) by (unfold i; dlia).
    rewrite Ej, kbyte_hi by assumption.
    apply byte_lxor; [apply HB; lia|].
    unfold ktemp; destruct (i mod Nk =? 0).
    + apply byte_lxor; [apply Sbox_byte, HB; pose proof (Z.mod_pos_bound (b + 1) 4); lia|].
      destruct (b =? 0); [|unfold byte; lia].
      apply xpow_byte. destruct HN as [(E1 & E2)|(E1 & E2)]; rewrite E1 in *; rewrite E2 in *; dlia.
    + destruct (_ && _); [apply Sbox_byte|]; apply HB; lia.
Qed.
Lemma round_key_kbyte r k : 0 <= k < 16 -> znth (round_key W r) k = kbyte W (16 * r + k).
Proof.
  intros Hk; unfold round_key; rewrite znth_ztab by exact Hk; unfold kbyte.
  replace ((16 * r + k) / 4) with (4 * r + k / 4) by dlia.
  replace ((16 * r + k) mod 4) with (k mod 4) by dlia; reflexivity.
Qed.
(** A schedule buffer filled up to byte [n]. *)
Definition sched_upto (n : Z) (s : list Z) : Prop :=
  zlen s = 16 * (Nr + 1) /\ forall j, 0 <= j < n -> znth s j = kbyte W j.
Lemma sched_round s r : sched_upto (16 * (Nr + 1)) s -> 0 <= r <= Nr ->
  zslice s (16 * r) 16 = round_key W r.
Proof.
  intros (L & E) Hr; apply list_ext.
  - rewrite zlen_zslice by lia; reflexivity.
  - rewrite zlen_zslice by lia; intros k Hk.
    rewrite znth_zslice by lia; rewrite round_key_kbyte by exact Hk; apply E; lia.
Qed.
Lemma sched_bytes s : sched_upto (16 * (Nr + 1)) s -> bytes_ok s.
Proof.
  intros (L & E); apply inrange_intro; rewrite L; intros i Hi; rewrite E by exact Hi.
  apply kbyte_byte; exact Hi.
Qed.

(* ------------------------------------------------------------------ *)
(** ** aes128_load_schedule_c, aes256_load_schedule_c *)
Lemma Rcon_xpow k : 1 <= k <= 10 -> znth Rcon k = xpow (Z.to_nat (k - 1)).
Proof.
  intros H; assert (C : k = 1 \/ k = 2 \/ k = 3 \/ k = 4 \/ k = 5 \/ k = 6 \/ k = 7 \/ k = 8 \/ k = 9 \/ k = 10) by lia.
  repeat (destruct C as [->|C]; [reflexivity|]); subst; reflexivity.
Qed.
Lemma load_schedule_c_wp sch : zlen sch = 16 * (Nr + 1) ->
  wp (load_schedule_c Nk Nr key sch) (sched_upto (16 * (Nr + 1))).
Proof.
  intros Hs; unfold load_schedule_c; apply wp_bind.
  apply (wp_for (fun i s => sched_upto (4 * i) s)).
  - lia.
  - split; [exact Hs|lia].
  - intros i s Hi (L & E).
    do 3 (apply wp_bind, wp_rd; [lia|apply (st_byte key _ Hkey)|];
          apply wp_bind, wp_wr; [rewrite ?zlen_zset; lia|]).
    apply wp_bind, wp_rd; [lia|apply (st_byte key _ Hkey)|].
    apply wp_wr; [rewrite ?zlen_zset; lia|].
    split; [rewrite !zlen_zset; exact L|].
    intros j Hj; rewrite !znth_zset by (rewrite ?zlen_zset; lia).
    rewrite kbyte_lo by lia.
    destruct (Z.eqb_spec (i * 4 + 3) j) as [<-|]; [reflexivity|].
    destruct (Z.eqb_spec (i * 4 + 2) j) as [<-|]; [reflexivity|].
    destruct (Z.eqb_spec (i * 4 + 1) j) as [<-|]; [reflexivity|].
    destruct (Z.eqb_spec (i * 4 + 0) j) as [<-|]; [reflexivity|].
    rewrite E by lia; apply kbyte_lo; lia.
  - intros s1 H1.
    apply (wp_for (fun i s => sched_upto (4 * i) s)).
    + lia.
    + exact H1.
    + intros i s Hi (L & E).
      assert (P : forall b, 0 <= b < 4 -> znth s ((i - 1) * 4 + b) = kbyte W (4 * (i - 1) + b) /\
                 byte (kbyte W (4 * (i - 1) + b))).
      { intros b Hb; split; [rewrite E by lia; f_equal; lia|apply kbyte_byte; lia]. }
      destruct (P 0 ltac:(lia)) as (P0 & B0); destruct (P 1 ltac:(lia)) as (P1 & B1);
      destruct (P 2 ltac:(lia)) as (P2 & B2); destruct (P 3 ltac:(lia)) as (P3 & B3); clear P.
      unfold byte in *.
      apply wp_bind, wp_rd; [lia|lia|]; rewrite P0.
      apply wp_bind, wp_rd; [lia|lia|]; rewrite P1.
      apply wp_bind, wp_rd; [lia|lia|]; rewrite P2.
      apply wp_bind, wp_rd; [lia|lia|]; rewrite P3.
      assert (KT := fun b Hb => kbyte_hi i b Hi Hb); unfold ktemp in KT.
      pose proof (KT 0 ltac:(lia)) as T0; pose proof (KT 1 ltac:(lia)) as T1;
      pose proof (KT 2 ltac:(lia)) as T2; pose proof (KT 3 ltac:(lia)) as T3; clear KT.
      change ((0 + 1) mod 4) with 1 in T0; change ((1 + 1) mod 4) with 2 in T1;
      change ((2 + 1) mod 4) with 3 in T2; change ((3 + 1) mod 4) with 0 in T3.
      change (0 =? 0) with true in T0; change (1 =? 0) with false in T1; change (2 =? 0) with false in T2;
      change (3 =? 0) with false in T3.
      revert T0 T1 T2 T3 B0 B1 B2 B3; cbv iota; clear P0 P1 P2 P3.
      generalize (kbyte W (4 * (i - 1) + 0)) (kbyte W (4 * (i - 1) + 1))
                 (kbyte W (4 * (i - 1) + 2)) (kbyte W (4 * (i - 1) + 3)).
      intros p0 p1 p2 p3 T0 T1 T2 T3 B0 B1 B2 B3.
      assert (Fin : forall t0 t1 t2 t3,
        kbyte W (4 * i + 0) = Z.lxor (kbyte W (4 * (i - Nk) + 0)) t0 ->
        kbyte W (4 * i + 1) = Z.lxor (kbyte W (4 * (i - Nk) + 1)) t1 ->
        kbyte W (4 * i + 2) = Z.lxor (kbyte W (4 * (i - Nk) + 2)) t2 ->
        kbyte W (4 * i + 3) = Z.lxor (kbyte W (4 * (i - Nk) + 3)) t3 ->
        wp (x <- rd s ((i - Nk) * 4 + 0);;
            RoundKey <- wr s (i * 4 + 0) (Z.lxor x t0);;
            x0 <- rd RoundKey ((i - Nk) * 4 + 1);;
            RoundKey0 <- wr RoundKey (i * 4 + 1) (Z.lxor x0 t1);;
            x1 <- rd RoundKey0 ((i - Nk) * 4 + 2);;
            RoundKey1 <- wr RoundKey0 (i * 4 + 2) (Z.lxor x1 t2);;
            x2 <- rd RoundKey1 ((i - Nk) * 4 + 3);; wr RoundKey1 (i * 4 + 3) (Z.lxor x2 t3))
           (fun s' => sched_upto (4 * (i + 1)) s')).
      { intros t0 t1 t2 t3 U0 U1 U2 U3.
        assert (P : forall b, 0 <= b < 4 -> znth s ((i - Nk) * 4 + b) = kbyte W (4 * (i - Nk) + b) /\
                 byte (kbyte W (4 * (i - Nk) + b))).
        { intros b Hb; split; [rewrite E by lia; f_equal; lia|apply kbyte_byte; lia]. }
        destruct (P 0 ltac:(lia)) as (P0 & C0); destruct (P 1 ltac:(lia)) as (P1 & C1);
        destruct (P 2 ltac:(lia)) as (P2 & C2); destruct (P 3 ltac:(lia)) as (P3 & C3); clear P.
        unfold byte in *.
        apply wp_bind, wp_rd; [lia|lia|]; rewrite P0.
        apply wp_bind, wp_wr; [lia|].
        apply wp_bind, wp_rd; [rewrite zlen_zset; lia|rewrite znth_zset_ne by lia; lia|].
        rewrite znth_zset_ne by lia; rewrite P1.
        apply wp_bind, wp_wr; [rewrite ?zlen_zset; lia|].
        apply wp_bind, wp_rd; [rewrite !zlen_zset; lia|rewrite !znth_zset_ne by (rewrite ?zlen_zset; lia); lia|].
        rewrite !znth_zset_ne by (rewrite ?zlen_zset; lia); rewrite P2.
        apply wp_bind, wp_wr; [rewrite ?zlen_zset; lia|].
        apply wp_bind, wp_rd; [rewrite !zlen_zset; lia|rewrite !znth_zset_ne by (rewrite ?zlen_zset; lia); lia|].
        rewrite !znth_zset_ne by (rewrite ?zlen_zset; lia); rewrite P3.
        apply wp_wr; [rewrite ?zlen_zset; lia|].
        split; [rewrite !zlen_zset; exact L|].
        intros j Hj; rewrite !znth_zset by (rewrite ?zlen_zset; lia).
        rewrite <- U0, <- U1, <- U2, <- U3, !(Z.mul_comm i 4).
        destruct (Z.eqb_spec (4 * i + 3) j) as [<-|]; [reflexivity|].
        destruct (Z.eqb_spec (4 * i + 2) j) as [<-|]; [reflexivity|].
        destruct (Z.eqb_spec (4 * i + 1) j) as [<-|]; [reflexivity|].
        destruct (Z.eqb_spec (4 * i + 0) j) as [<-|]; [reflexivity|].
        apply E; lia. }
      apply wp_bind, wp_branch; intros C.
      * rewrite C in T0, T1, T2, T3.
        repeat (apply wp_bind, getSBoxValue_wp; [unfold byte; lia|]).
        assert (Hd : 1 <= i / Nk <= 10).
        { destruct HN as [(E1 & E2)|(E1 & E2)]; rewrite E1 in *; rewrite E2 in *; dlia. }
        assert (Hx : 0 <= xpow (Z.to_nat (i / Nk - 1))) by (apply xpow_byte; lia).
        apply wp_bind, wp_rd; [change (zlen Rcon) with 11; lia|rewrite Rcon_xpow; lia|].
        apply wp_ret; cbv iota beta; apply wp_bind, wp_branch; intros C4.
        { exfalso; lia. }
        apply wp_ret; cbv iota beta; apply Fin.
        -- rewrite Rcon_xpow by lia; exact T0.
        -- rewrite Z.lxor_0_r in T1; exact T1.
        -- rewrite Z.lxor_0_r in T2; exact T2.
        -- rewrite Z.lxor_0_r in T3; exact T3.
      * rewrite C in T0, T1, T2, T3.
        apply wp_ret; cbv iota beta; apply wp_bind, wp_branch; intros C4.
        -- assert (H6 : 6 <? Nk = true).
           { destruct HN as [(E1 & E2)|(E1 & E2)]; [exfalso|rewrite E1; reflexivity].
             rewrite E1 in *; clear - C4; pose proof (Z.mod_pos_bound i 4); lia. }
           rewrite C4, H6 in T0, T1, T2, T3; cbn [andb] in T0, T1, T2, T3.
           repeat (apply wp_bind, getSBoxValue_wp; [unfold byte; lia|]).
           apply wp_ret; cbv iota beta; apply Fin; assumption.
        -- rewrite C4, andb_false_r in T0, T1, T2, T3.
           apply wp_ret; cbv iota beta; apply Fin; assumption.
    + intros s; replace (4 * (4 * (Nr + 1))) with (16 * (Nr + 1)) by lia; auto.
Qed.

(* ------------------------------------------------------------------ *)
(** ** Cipher *)
Lemma AddRoundKey_ok s r : st_ok s -> 0 <= r <= Nr -> st_ok (AddRoundKey_spec s (round_key W r)).
Proof.
  intros (L & B) Hr; unfold AddRoundKey_spec.
  assert (L' : zlen (xorlist s (round_key W r)) = 16) by (unfold xorlist; rewrite zlen_ztab; lia).
  apply st_intro; [exact L'|].
  intros k Hk; rewrite znth_xorlist by lia; apply byte_lxor; [apply st_byte; exact B|].
  rewrite round_key_kbyte by exact Hk; apply kbyte_byte; lia.
Qed.
Lemma SubBytes_ok s : st_ok s -> st_ok (SubBytes_spec s).
Proof.
  intros (L & B); apply st_intro; unfold SubBytes_spec; [rewrite zlen_map; exact L|].
  intros k Hk; rewrite znth_map by lia; apply Sbox_byte, st_byte, B.
Qed.
Lemma ShiftRows_ok s : st_ok s -> st_ok (ShiftRows_spec s).
Proof.
  intros (L & B); apply st_intro; unfold ShiftRows_spec; [rewrite zlen_ztab; lia|].
  intros k Hk; rewrite znth_ztab by lia; apply st_byte, B.
Qed.
Lemma gmul_byte c x : c = 1 \/ c = 2 \/ c = 3 -> byte x -> byte (gmul c x).
Proof.
  intros H Hx; destruct (mulx_facts x Hx) as (_ & F2 & F3 & F1 & F & _ & _).
  destruct H as [->|[->| ->]]; [rewrite F1; exact Hx|rewrite F2; exact F|rewrite F3; apply byte_lxor; assumption].
Qed.
Lemma MixColumns_ok s : st_ok s -> st_ok (MixColumns_spec s).
Proof.
  intros (L & B); apply st_intro; unfold MixColumns_spec; [rewrite zlen_ztab; lia|].
  intros k Hk; rewrite znth_ztab by lia; cbv zeta.
  assert (G : forall j, byte (gmul (znth [2; 3; 1; 1] ((j - k mod 4) mod 4)) (znth s (j + 4 * (k / 4))))).
  { intros j; apply gmul_byte; [|apply st_byte, B].
    pose proof (Z.mod_pos_bound (j - k mod 4) 4 ltac:(lia)) as Hm; revert Hm.
    generalize ((j - k mod 4) mod 4); intros m Hm.
    assert (C : m = 0 \/ m = 1 \/ m = 2 \/ m = 3) by lia.
    destruct C as [->|[->|[->| ->]]]; cbv; auto. }
  apply byte_lxor; [apply byte_lxor; [apply byte_lxor|]|]; apply G.
Qed.
Definition rounds (n : Z) (s : list Z) : list Z :=
  fold_left (round_spec W) (map (fun i => i + 1) (zseq n)) s.
Lemma rounds_succ n s : 0 <= n -> rounds (n + 1) s = round_spec W (rounds n s) (n + 1).
Proof.
  intros Hn; unfold rounds, zseq.
  replace (Z.to_nat (n + 1)) with (Z.to_nat n + 1)%nat by lia.
  rewrite seq_app, !map_app, fold_left_app; cbn [seq map fold_left].
  f_equal; lia.
Qed.
Lemma rounds_ok n s : st_ok s -> 0 <= n < Nr -> st_ok (rounds n s).
Proof.
  intros Hs; remember (Z.to_nat n) as m; revert n Heqm.
  induction m as [|m IH]; intros n Em Hn.
  - replace n with 0 by lia; exact Hs.
  - replace n with ((n - 1) + 1) by lia; rewrite rounds_succ by lia.
    unfold round_spec; apply AddRoundKey_ok; [|lia].
    apply MixColumns_ok, ShiftRows_ok, SubBytes_ok, IH; lia.
Qed.
Lemma Cipher_spec_rounds inp : Cipher_spec Nr W inp =
  AddRoundKey_spec (ShiftRows_spec (SubBytes_spec (rounds (Nr - 1) (AddRoundKey_spec inp (round_key W 0))))) (round_key W Nr).
Proof. reflexivity. Qed.
Lemma Cipher_spec_ok inp : st_ok inp -> st_ok (Cipher_spec Nr W inp).
Proof.
  intros H; rewrite Cipher_spec_rounds; apply AddRoundKey_ok; [|lia].
  apply ShiftRows_ok, SubBytes_ok, rounds_ok; [|lia]; apply AddRoundKey_ok; [exact H|lia].
Qed.
Ltac wstep L := eapply wp_mono; [apply L|intros ? ->].
Lemma Cipher_wp inp sch : st_ok inp -> sched_upto (16 * (Nr + 1)) sch ->
  wp (Cipher inp sch Nr) (fun o => o = Cipher_spec Nr W inp).
Proof.
  intros Hi Hs; pose proof (sched_bytes _ Hs) as Hb.
  pose proof (proj1 Hs) as Hl.
  unfold Cipher; apply wp_bind.
  wstep AddRoundKey_wp; [assumption|assumption|lia|lia|].
  rewrite (sched_round sch 0) by (try assumption; lia).
  pose proof (AddRoundKey_ok inp 0 Hi ltac:(lia)) as H0; revert H0.
  rewrite Cipher_spec_rounds.
  generalize (AddRoundKey_spec inp (round_key W 0)); intros s0 H0.
  apply wp_bind.
  apply (wp_for (fun i s => s = rounds (i - 1) s0)); [lia|reflexivity| |].
  - intros i s' Hi' ->.
    pose proof (rounds_ok (i - 1) s0 H0 ltac:(lia)) as H1.
    apply wp_bind; wstep SubBytes_wp; [assumption|].
    pose proof (SubBytes_ok _ H1) as H2.
    apply wp_bind; wstep ShiftRows_wp; [assumption|].
    pose proof (ShiftRows_ok _ H2) as H3.
    apply wp_bind; wstep MixColumns_wp; [assumption|].
    pose proof (MixColumns_ok _ H3) as H4.
    wstep AddRoundKey_wp; [assumption|assumption|lia|lia|].
    rewrite (sched_round sch i) by (try assumption; lia).
    replace (i + 1 - 1) with ((i - 1) + 1) by lia; rewrite rounds_succ by lia.
    replace (i - 1 + 1) with i by lia; reflexivity.
  - intros s ->.
    pose proof (rounds_ok (Nr - 1) s0 H0 ltac:(lia)) as H1.
    apply wp_bind; wstep SubBytes_wp; [assumption|].
    pose proof (SubBytes_ok _ H1) as H2.
    apply wp_bind; wstep ShiftRows_wp; [assumption|].
    pose proof (ShiftRows_ok _ H2) as H3.
    wstep AddRoundKey_wp; [assumption|assumption|lia|lia|].
    rewrite (sched_round sch Nr) by (try assumption; lia); reflexivity.
Qed.
Lemma aes_enc_c_wp inp sch out : st_ok inp -> zlen out = 16 -> sched_upto (16 * (Nr + 1)) sch ->
  wp (aes_enc_c Nr inp sch out) (fun o => o = Cipher_spec Nr W inp).
Proof.
  intros Hi Ho Hs; unfold aes_enc_c; apply wp_bind, wp_memcpy; try lia.
  { destruct Hi; lia. }
  rewrite zslice_all_n by (apply Hi); rewrite zsplice_all by (destruct Hi; lia).
  apply Cipher_wp; assumption.
Qed.

(* ------------------------------------------------------------------ *)
(** ** aes_ni.c *)
Lemma all_init_ok l : bytes_ok l -> all_init l = true.
Proof.
  intros H; unfold all_init; apply forallb_forall; intros x Hx.
  unfold bytes_ok, inrange in H; rewrite Forall_forall in H; specialize (H x Hx); lia.
Qed.
Lemma loadu128_wp l o (Q : list Z -> Prop) : 0 <= o -> o + 16 <= zlen l -> bytes_ok (zslice l o 16) ->
  Q (zslice l o 16) -> wp (loadu128 l o) Q.
Proof.
  intros; unfold loadu128; apply wp_bind, wp_sub; try lia.
  rewrite all_init_ok by assumption; apply wp_ret; assumption.
Qed.
Lemma sched_slice n s i : sched_upto n s -> 0 <= i <= Nr -> 16 * i + 16 <= n ->
  zslice s (16 * i) 16 = round_key W i /\ bytes_ok (round_key W i).
Proof.
  intros (L & E) Hi Hn; split.
  - apply list_ext.
    + rewrite zlen_zslice by lia; reflexivity.
    + rewrite zlen_zslice by lia; intros k Hk.
      rewrite znth_zslice by lia; rewrite round_key_kbyte by exact Hk; apply E; lia.
  - apply inrange_intro; change (zlen (round_key W i)) with 16; intros k Hk.
    rewrite round_key_kbyte by exact Hk; apply kbyte_byte; lia.
Qed.
Lemma load128_wp n s i (Q : list Z -> Prop) : sched_upto n s -> 0 <= i <= Nr -> 16 * i + 16 <= n ->
  Q (round_key W i) -> wp (load128 true s i) Q.
Proof.
  intros Hs Hi Hn HQ; destruct (sched_slice _ _ _ Hs Hi Hn) as (E & B).
  unfold load128; apply loadu128_wp; rewrite ?E; try assumption; try lia.
  destruct Hs; lia.
Qed.

Lemma xorlist_mm a b : zlen a = 16 -> mm_xor a b = xorlist a b.
Proof. intros H; unfold mm_xor, xorlist; rewrite H; reflexivity. Qed.
Lemma hw_sub_Sbox x : byte x -> hw_sub x = Sbox x.
Proof. apply sbox_Sbox. Qed.
Lemma hw_round s : st_ok s ->
  hw_subbytes (hw_shiftrows s) = ShiftRows_spec (SubBytes_spec s).
Proof.
  intros (L & B); apply list_ext; [reflexivity|].
  change (zlen (hw_subbytes (hw_shiftrows s))) with 16; intros k Hk.
  unfold hw_subbytes, hw_shiftrows, ShiftRows_spec, SubBytes_spec; cbv zeta.
  rewrite !znth_ztab by lia.
  rewrite znth_map by (rewrite L; dlia).
  rewrite hw_sub_Sbox by (apply st_byte, B); do 2 f_equal; dlia.
Qed.
Lemma hw_mix s : st_ok s -> hw_mixcolumns s = MixColumns_spec s.
Proof.
  intros (L & B); apply list_ext; [reflexivity|].
  change (zlen (hw_mixcolumns s)) with 16; intros k Hk.
  unfold hw_mixcolumns, MixColumns_spec; rewrite !znth_ztab by lia; cbv zeta.
  pose proof (Z.mod_pos_bound k 4 ltac:(lia)) as Hm; revert Hm.
  generalize (k mod 4); intros r Hr; generalize (k / 4); intros c.
  assert (Fx : forall j, let x := znth s (j + 4 * c) in hw_mulx x = mulx x /\ gmul 2 x = mulx x /\ gmul 3 x = Z.lxor (mulx x) x /\ gmul 1 x = x).
  { intros j x; destruct (mulx_facts x) as (_ & F2 & F3 & F1 & _ & Fh & _); [apply st_byte, B|]; auto. }
  pose proof (Fx 0) as X0; pose proof (Fx 1) as X1; pose proof (Fx 2) as X2; pose proof (Fx 3) as X3; clear Fx.
  cbv zeta in X0, X1, X2, X3.
  destruct X0 as (H0 & D0 & T0 & O0); destruct X1 as (H1 & D1 & T1 & O1);
  destruct X2 as (H2 & D2 & T2 & O2); destruct X3 as (H3 & D3 & T3 & O3).
  rewrite !(Z.add_comm (4 * c)).
  assert (C : r = 0 \/ r = 1 \/ r = 2 \/ r = 3) by lia.
  destruct C as [->|[->|[->| ->]]].
  - change ((0 + 0) mod 4) with 0; change ((0 + 1) mod 4) with 1; change ((0 + 2) mod 4) with 2; change ((0 + 3) mod 4) with 3.
    change (znth [2;3;1;1] ((0-0) mod 4)) with 2; change (znth [2;3;1;1] ((1-0) mod 4)) with 3;
    change (znth [2;3;1;1] ((2-0) mod 4)) with 1; change (znth [2;3;1;1] ((3-0) mod 4)) with 1.
    rewrite H0, H1, D0, T1, O2, O3; lxor_solve.
  - change ((1 + 0) mod 4) with 1; change ((1 + 1) mod 4) with 2; change ((1 + 2) mod 4) with 3; change ((1 + 3) mod 4) with 0.
    change (znth [2;3;1;1] ((0-1) mod 4)) with 1; change (znth [2;3;1;1] ((1-1) mod 4)) with 2;
    change (znth [2;3;1;1] ((2-1) mod 4)) with 3; change (znth [2;3;1;1] ((3-1) mod 4)) with 1.
    rewrite H1, H2, O0, D1, T2, O3; lxor_solve.
  - change ((2 + 0) mod 4) with 2; change ((2 + 1) mod 4) with 3; change ((2 + 2) mod 4) with 0; change ((2 + 3) mod 4) with 1.
    change (znth [2;3;1;1] ((0-2) mod 4)) with 1; change (znth [2;3;1;1] ((1-2) mod 4)) with 1;
    change (znth [2;3;1;1] ((2-2) mod 4)) with 2; change (znth [2;3;1;1] ((3-2) mod 4)) with 3.
    rewrite H2, H3, O0, O1, D2, T3; lxor_solve.
  - change ((3 + 0) mod 4) with 3; change ((3 + 1) mod 4) with 0; change ((3 + 2) mod 4) with 1; change ((3 + 3) mod 4) with 2.
    change (znth [2;3;1;1] ((0-3) mod 4)) with 3; change (znth [2;3;1;1] ((1-3) mod 4)) with 1;
    change (znth [2;3;1;1] ((2-3) mod 4)) with 1; change (znth [2;3;1;1] ((3-3) mod 4)) with 2.
    rewrite H3, H0, T0, O1, O2, D3; lxor_solve.
Qed.
Lemma aes_enc_ni_wp inp sch out : st_ok inp -> zlen out = 16 -> sched_upto (16 * (Nr + 1)) sch ->
  wp (aes_enc_ni true Nr inp sch out) (fun o => o = Cipher_spec Nr W inp).
Proof.
  intros Hi Ho Hs; unfold aes_enc_ni; pose proof Hi as (Li & Bi).
  apply wp_bind, loadu128_wp; rewrite ?zslice_all_n by exact Li; try assumption; try lia.
  apply wp_bind, (load128_wp (16 * (Nr + 1))); try assumption; try lia.
  cbv zeta; rewrite xorlist_mm by exact Li; fold (AddRoundKey_spec inp (round_key W 0)).
  pose proof (AddRoundKey_ok inp 0 Hi ltac:(lia)) as H0; revert H0.
  rewrite Cipher_spec_rounds.
  generalize (AddRoundKey_spec inp (round_key W 0)); intros s0 H0.
  apply wp_bind.
  apply (wp_for (fun i s => s = rounds (i - 1) s0)); [lia|reflexivity| |].
  - intros i s' Hi' ->.
    pose proof (rounds_ok (i - 1) s0 H0 ltac:(lia)) as H1.
    apply wp_bind, (load128_wp (16 * (Nr + 1))); try assumption; try lia.
    apply wp_ret; unfold mm_aesenc; rewrite xorlist_mm by reflexivity.
    rewrite hw_round by exact H1; rewrite hw_mix by (apply ShiftRows_ok, SubBytes_ok, H1).
    replace (i + 1 - 1) with ((i - 1) + 1) by lia; rewrite rounds_succ by lia.
    replace (i - 1 + 1) with i by lia; reflexivity.
  - intros s ->.
    pose proof (rounds_ok (Nr - 1) s0 H0 ltac:(lia)) as H1.
    apply wp_bind, (load128_wp (16 * (Nr + 1))); try assumption; try lia.
    unfold mm_aesenclast, storeu128; rewrite xorlist_mm by reflexivity.
    rewrite hw_round by exact H1.
    apply wp_put; [lia|unfold xorlist; rewrite zlen_ztab by apply zlen_nonneg; change (zlen (ShiftRows_spec _)) with 16; lia|].
    rewrite zsplice_all; [reflexivity|].
    unfold xorlist; rewrite zlen_ztab by apply zlen_nonneg; change (zlen (ShiftRows_spec _)) with 16; lia.
Qed.

(** Byte k of key_expand: the running xor of the dwords, plus the broadcast dword. *)
Lemma key_expand_nth dw a g d b : 0 <= b < 4 -> 0 <= d < 4 ->
  znth (key_expand dw a g) (4 * d + b) =
  Z.lxor (Z.lxor (znth a (4 * d + b)) (Z.lxor (if d <? 1 then 0 else znth a (4 * (d - 1) + b))
    (Z.lxor (if d <? 2 then 0 else znth a (4 * (d - 2) + b)) (if d <? 3 then 0 else znth a (4 * (d - 3) + b)))))
    (znth g (4 * dw + b)).
Proof.
  intros Hb Hd; unfold key_expand; cbv zeta; unfold mm_xor at 1; rewrite znth_ztab by lia.
  unfold mm_bcast32; rewrite znth_ztab by lia.
  replace ((4 * d + b) mod 4) with b by dlia; f_equal.
  assert (C : d = 0 \/ d = 1 \/ d = 2 \/ d = 3) by lia.
  assert (C' : b = 0 \/ b = 1 \/ b = 2 \/ b = 3) by lia.
  destruct C as [->|[->|[->| ->]]]; destruct C' as [->|[->|[->| ->]]];
  repeat (unfold mm_xor at 1; rewrite znth_ztab by (cbn; lia) || (unfold mm_slli_si128 at 1; rewrite znth_ztab by (cbn; lia)));
  cbn [Z.ltb Z.compare Z.add Z.mul Z.sub Z.opp Z.pos_sub Pos.add Pos.mul Pos.succ Pos.compare Pos.compare_cont Pos.pred_double Z.succ_double Z.pred_double Z.double].
  all: unfold mm_xor, mm_slli_si128; cbn [Z.ltb Z.compare Z.add Z.mul Z.sub Z.opp Z.pos_sub Pos.add Pos.mul Pos.succ Pos.compare Pos.compare_cont Pos.pred_double Z.succ_double Z.pred_double Z.double].
  all: repeat (rewrite znth_ztab by lia); cbn -[Z.lxor znth].
  all: repeat (rewrite znth_ztab by lia); cbn -[Z.lxor znth].
  all: repeat (rewrite znth_ztab by lia); cbn -[Z.lxor znth].
  all: lxor_solve.
Qed.
Lemma keygen3 b0 rcon b : (forall k, byte (znth b0 k)) -> 0 <= b < 4 ->
  znth (mm_aeskeygenassist b0 rcon) (4 * 3 + b) =
  Z.lxor (Sbox (znth b0 (12 + (b + 1) mod 4))) (if b =? 0 then rcon else 0).
Proof.
  intros H Hb; unfold mm_aeskeygenassist; rewrite znth_ztab by lia; cbv zeta.
  replace ((4 * 3 + b) / 4) with 3 by dlia; replace ((4 * 3 + b) mod 4) with b by dlia.
  cbn [Z.ltb Z.compare Pos.compare Pos.compare_cont]; change (3 mod 2 =? 0) with false; cbv iota.
  change (4 * 3) with 12; rewrite hw_sub_Sbox by apply H; reflexivity.
Qed.
Lemma keygen2 b0 rcon b : (forall k, byte (znth b0 k)) -> 0 <= b < 4 ->
  znth (mm_aeskeygenassist b0 rcon) (4 * 2 + b) = Sbox (znth b0 (12 + b)).
Proof.
  intros H Hb; unfold mm_aeskeygenassist; rewrite znth_ztab by lia; cbv zeta.
  replace ((4 * 2 + b) / 4) with 2 by dlia; replace ((4 * 2 + b) mod 4) with b by dlia.
  cbn [Z.ltb Z.compare Pos.compare Pos.compare_cont]; change (2 mod 2 =? 0) with true; cbv iota.
  change (4 * 3) with 12; rewrite hw_sub_Sbox by apply H; reflexivity.
Qed.
(** One step of either schedule: round key i from round key i - Nk/4 and i - 1. *)
Lemma expand_step i dw rcon : Nk / 4 <= i <= Nr ->
  (dw = 3 /\ (4 * i) mod Nk = 0 /\ rcon = xpow (Z.to_nat (4 * i / Nk - 1)) \/
   dw = 2 /\ Nk = 8 /\ (4 * i) mod Nk = 4) ->
  key_expand dw (round_key W (i - Nk / 4)) (mm_aeskeygenassist (round_key W (i - 1)) rcon) = round_key W i.
Proof.
  intros Hi Hc; apply list_ext; [reflexivity|].
  change (zlen (key_expand dw (round_key W (i - Nk / 4)) (mm_aeskeygenassist (round_key W (i - 1)) rcon))) with 16.
  intros k Hk.
  assert (Ek : k = 4 * (k / 4) + k mod 4) by dlia.
  assert (Hd : 0 <= k / 4 < 4) by dlia. assert (Hb : 0 <= k mod 4 < 4) by dlia.
  revert Ek Hd Hb; generalize (k / 4) (k mod 4); intros d b -> Hd Hb; clear Hk.
  assert (Nk4 : Nk = 4 * (Nk / 4)) by (destruct HN as [(-> & _)|(-> & _)]; reflexivity).
  assert (Hi1 : 1 <= i) by (destruct HN as [(E1 & _)|(E1 & _)]; rewrite E1 in Hi; change (4 / 4) with 1 in *; change (8 / 4) with 2 in *; lia).
  rewrite key_expand_nth by assumption.
  assert (RB : forall k, byte (znth (round_key W (i - 1)) k)).
  { intros k; destruct (Z.lt_ge_cases k 0); [rewrite znth_neg by lia; unfold byte; lia|].
    destruct (Z.lt_ge_cases k 16); [|rewrite znth_out by (change (zlen (round_key W (i - 1))) with 16; lia); unfold byte; lia].
    rewrite round_key_kbyte by lia; apply kbyte_byte; lia. }
  (* first word of the new round key *)
  set (g := znth (mm_aeskeygenassist (round_key W (i - 1)) rcon) (4 * dw + b)).
  assert (Hg : g = ktemp (4 * i) b (fun c => kbyte W (4 * (4 * i - 1) + c))).
  { unfold g, ktemp; destruct Hc as [(-> & Hm & ->)|(-> & E8 & Hm)].
    - rewrite keygen3 by assumption; rewrite Hm; cbn [Z.eqb].
      rewrite round_key_kbyte by (pose proof (Z.mod_pos_bound (b + 1) 4); lia).
      do 3 f_equal; lia.
    - rewrite keygen2 by assumption; rewrite Hm, E8; cbn [Z.eqb Pos.eqb Z.ltb Z.compare Pos.compare Pos.compare_cont andb].
      rewrite round_key_kbyte by lia; do 2 f_equal; lia. }
  rewrite Hg.
  assert (K0 := kbyte_hi (4 * i) b ltac:(lia) Hb).
  assert (KS : forall e, 1 <= e < 4 -> kbyte W (4 * (4 * i + e) + b) =
      Z.lxor (kbyte W (4 * (4 * i + e - Nk) + b)) (kbyte W (4 * (4 * i + e - 1) + b))).
  { intros e He; rewrite kbyte_hi by lia; f_equal; unfold ktemp.
    assert (Hz : (4 * i + e) mod Nk <> 0 /\ (4 * i + e) mod Nk <> 4).
    { destruct HN as [(E1 & E2)|(E1 & E2)]; rewrite E1; clear - He; dlia. }
    destruct (Z.eqb_spec ((4 * i + e) mod Nk) 0); [lia|].
    destruct (Z.eqb_spec ((4 * i + e) mod Nk) 4); [lia|]; rewrite andb_false_r; reflexivity. }
  generalize dependent (ktemp (4 * i) b (fun c => kbyte W (4 * (4 * i - 1) + c))); intros T Hg K0; clear Hg.
  pose proof (KS 1 ltac:(lia)) as K1; pose proof (KS 2 ltac:(lia)) as K2; pose proof (KS 3 ltac:(lia)) as K3; clear KS.
  replace (4 * i + 1 - 1) with (4 * i) in K1 by lia; rewrite K0 in K1.
  replace (4 * i + 2 - 1) with (4 * i + 1) in K2 by lia; rewrite K1 in K2.
  replace (4 * i + 3 - 1) with (4 * i + 2) in K3 by lia; rewrite K2 in K3.
  rewrite (round_key_kbyte i), (round_key_kbyte (i - Nk / 4) (4 * d + b)) by lia.
  replace (4 * (4 * i - Nk) + b) with (16 * (i - Nk / 4) + (4 * 0 + b)) in * by lia.
  replace (4 * (4 * i + 1 - Nk) + b) with (16 * (i - Nk / 4) + (4 * 1 + b)) in * by lia.
  replace (4 * (4 * i + 2 - Nk) + b) with (16 * (i - Nk / 4) + (4 * 2 + b)) in * by lia.
  replace (4 * (4 * i + 3 - Nk) + b) with (16 * (i - Nk / 4) + (4 * 3 + b)) in * by lia.
  assert (C : d = 0 \/ d = 1 \/ d = 2 \/ d = 3) by lia.
  destruct C as [->|[->|[->| ->]]].
  - replace (16 * i + (4 * 0 + b)) with (4 * (4 * i) + b) by lia; rewrite K0.
    cbn [Z.ltb Z.compare]; lxor_solve.
  - replace (16 * i + (4 * 1 + b)) with (4 * (4 * i + 1) + b) by lia; rewrite K1.
    change (1 <? 1) with false; change (1 <? 2) with true; change (1 <? 3) with true; cbv iota.
    rewrite !round_key_kbyte by lia; change (1 - 1) with 0; lxor_solve.
  - replace (16 * i + (4 * 2 + b)) with (4 * (4 * i + 2) + b) by lia; rewrite K2.
    change (2 <? 1) with false; change (2 <? 2) with false; change (2 <? 3) with true; cbv iota.
    rewrite !round_key_kbyte by lia; change (2 - 1) with 1; change (2 - 2) with 0; lxor_solve.
  - replace (16 * i + (4 * 3 + b)) with (4 * (4 * i + 3) + b) by lia; rewrite K3.
    change (3 <? 1) with false; change (3 <? 2) with false; change (3 <? 3) with false; cbv iota.
    rewrite !round_key_kbyte by lia; change (3 - 1) with 2; change (3 - 2) with 1; change (3 - 3) with 0; lxor_solve.
Qed.
Lemma sched_store s i : sched_upto (16 * i) s -> 0 <= i <= Nr ->
  sched_upto (16 * (i + 1)) (zsplice s (16 * i) (round_key W i)).
Proof.
  intros (L & E) Hi; split.
  - rewrite zlen_zsplice; [exact L|lia|change (zlen (round_key W i)) with 16; lia].
  - intros j Hj; rewrite znth_zsplice by (change (zlen (round_key W i)) with 16; lia).
    change (zlen (round_key W i)) with 16.
    destruct (Z.leb_spec (16 * i) j); cbn [andb]; [|apply E; lia].
    destruct (Z.ltb_spec j (16 * i + 16)); [|lia].
    rewrite round_key_kbyte by lia; f_equal; lia.
Qed.
Lemma ni_step256_wp dw s i rcon : Nk / 4 = 2 -> 2 <= i <= Nr -> sched_upto (16 * i) s ->
  (dw = 3 /\ (4 * i) mod Nk = 0 /\ rcon = xpow (Z.to_nat (4 * i / Nk - 1)) \/
   dw = 2 /\ Nk = 8 /\ (4 * i) mod Nk = 4) ->
  wp (ni_step256 true dw s i rcon) (sched_upto (16 * (i + 1))).
Proof.
  intros H2 Hi Hs Hc; unfold ni_step256.
  apply wp_bind, (load128_wp (16 * i)); try assumption; try lia.
  apply wp_bind, (load128_wp (16 * i)); try assumption; try lia.
  pose proof (expand_step i dw rcon ltac:(lia) Hc) as E; rewrite H2 in E; rewrite E.
  unfold store128, storeu128; apply wp_put; [lia|change (zlen (round_key W i)) with 16; destruct Hs; lia|].
  apply sched_store; [exact Hs|lia].
Qed.
Lemma ni_step_wp s i rcon : Nk = 4 -> 1 <= i <= Nr -> sched_upto (16 * i) s ->
  rcon = xpow (Z.to_nat (i - 1)) ->
  wp (ni_step true s i rcon) (sched_upto (16 * (i + 1))).
Proof.
  intros H4 Hi Hs Hc; unfold ni_step.
  apply wp_bind, (load128_wp (16 * i)); try assumption; try lia.
  apply wp_bind, (load128_wp (16 * i)); try assumption; try lia.
  assert (E1 : Nk / 4 = 1) by (rewrite H4; reflexivity).
  pose proof (expand_step i 3 rcon ltac:(lia)) as E; rewrite E1 in E; rewrite E.
  2:{ left; repeat split; rewrite H4; [dlia|]. rewrite Hc; do 2 f_equal; dlia. }
  unfold store128, storeu128; apply wp_put; [lia|change (zlen (round_key W i)) with 16; destruct Hs; lia|].
  apply sched_store; [exact Hs|lia].
Qed.
Lemma key_slice o : 0 <= o -> 16 * o + 16 <= 4 * Nk -> zslice key (16 * o) 16 = round_key W o.
Proof.
  intros Ho H; apply list_ext; [rewrite zlen_zslice by lia; reflexivity|].
  rewrite zlen_zslice by lia; intros k Hk; rewrite znth_zslice by lia.
  rewrite round_key_kbyte by lia; rewrite kbyte_lo by lia; reflexivity.
Qed.
Lemma ni_store0 s o (Q : list Z -> Prop) : sched_upto (16 * o) s -> 0 <= o <= Nr -> 16 * o + 16 <= 4 * Nk ->
  (forall s', sched_upto (16 * (o + 1)) s' -> Q s') ->
  wp (store128 true s o (zslice key (16 * o) 16)) Q.
Proof.
  intros Hs Ho H HQ; rewrite key_slice by lia.
  unfold store128, storeu128; apply wp_put; [lia|change (zlen (round_key W o)) with 16; destruct Hs; lia|].
  apply HQ, sched_store; [exact Hs|lia].
Qed.
Lemma key_bytes o : bytes_ok (zslice key o 16).
Proof. apply inrange_zslice; exact Hkey. Qed.
Lemma aes128_load_schedule_ni_wp sch : Nk = 4 -> zlen sch = 16 * (Nr + 1) ->
  wp (aes128_load_schedule_ni true key sch) (sched_upto (16 * (Nr + 1))).
Proof.
  intros H4 Hs; assert (Hr : Nr = 10) by lia; unfold aes128_load_schedule_ni.
  apply wp_bind, loadu128_wp; [lia|lia|apply key_bytes|].
  apply wp_bind; change 0 with (16 * 0) at 2.
  apply ni_store0; [split; [exact Hs|lia]|lia|lia|].
  intros s0 H0.
  do 9 (apply wp_bind; eapply wp_mono; [apply ni_step_wp; [exact H4|lia|eassumption|reflexivity]|];
        let s := fresh "s" in let H := fresh "H" in intros s H; cbv beta in H;
        match type of H with sched_upto ?e _ => let e' := eval vm_compute in e in change e with e' in H end).
  eapply wp_mono; [apply ni_step_wp; [exact H4|lia|eassumption|reflexivity]|].
  intros ? H'; rewrite Hr; exact H'.
Qed.
Lemma aes256_load_schedule_ni_wp sch : Nk = 8 -> zlen sch = 16 * (Nr + 1) ->
  wp (aes256_load_schedule_ni true key sch) (sched_upto (16 * (Nr + 1))).
Proof.
  intros H8 Hs; assert (Hr : Nr = 14) by lia; unfold aes256_load_schedule_ni.
  assert (H2 : Nk / 4 = 2) by (rewrite H8; reflexivity).
  apply wp_bind, loadu128_wp; [lia|lia|apply key_bytes|].
  apply wp_bind; change 0 with (16 * 0) at 2.
  apply ni_store0; [split; [exact Hs|lia]|lia|lia|]; intros s0 H0.
  apply wp_bind, loadu128_wp; [lia|lia|apply key_bytes|].
  apply wp_bind; change 16 with (16 * 1) at 1.
  apply ni_store0; [exact H0|lia|lia|]; intros s1 H1.
  do 12 (apply wp_bind; eapply wp_mono; [apply ni_step256_wp; [exact H2|lia|eassumption|
           rewrite H8; first [left; split; [reflexivity|split; reflexivity] | right; split; [reflexivity|split; reflexivity]]]|];
        let s := fresh "s" in let H := fresh "H" in intros s H; cbv beta in H;
        match type of H with sched_upto ?e _ => let e' := eval vm_compute in e in change e with e' in H end).
  eapply wp_mono; [apply ni_step256_wp; [exact H2|lia|eassumption|rewrite H8; left; repeat split; reflexivity]|].
  intros ? H'; rewrite Hr; exact H'.
Qed.

(* ------------------------------------------------------------------ *)
(** ** OpenSSL *)
Lemma evp_init_wp sch : zlen sch = 16 * (Nr + 1) -> wp (evp_init Nk Nr key sch) (sched_upto (16 * (Nr + 1))).
Proof.
  intros Hs. unfold evp_init. apply wp_bind, wp_sub; try lia. rewrite zslice_all_n by lia. rewrite all_init_ok by exact Hkey. cbn [negb].
  apply wp_put; rewrite ?zlen_ztab by lia; try lia. rewrite zsplice_all by (rewrite zlen_ztab; lia).
  split; [apply zlen_ztab; lia|]. intros j Hj. rewrite znth_ztab by lia. reflexivity.
Qed.
Lemma words_of_schedule sch : sched_upto (16 * (Nr + 1)) sch ->
  ztab (4 * (Nr + 1)) (fun i => zslice sch (4 * i) 4) = W.
Proof.
  intros (Ls & Es).
  assert (LT : length (ztab (4 * (Nr + 1)) (fun i => zslice sch (4 * i) 4)) = length W).
  { pose proof zlen_W as L1. pose proof (zlen_ztab (4 * (Nr + 1)) (fun i => zslice sch (4 * i) 4) ltac:(lia)) as L2.
    unfold zlen in L1, L2. lia. }
  apply (nth_ext _ _ [] []); [exact LT|]. intros n Hn. rewrite LT in Hn.
  pose proof zlen_W as LW. unfold zlen in LW.
  set (i := Z.of_nat n). assert (Hi : 0 <= i < 4 * (Nr + 1)) by (unfold i; lia).
  assert (EL : nth n (ztab (4 * (Nr + 1)) (fun i => zslice sch (4 * i) 4)) [] = zslice sch (4 * i) 4).
  { unfold ztab. rewrite (nth_indep _ [] ((fun i => zslice sch (4 * i) 4) 0)) by (unfold ztab in LT; rewrite LT; exact Hn).
    rewrite (map_nth (fun i => zslice sch (4 * i) 4)). unfold i. rewrite <- (Nat2Z.id n) at 1.
    rewrite zseq_nth by lia. reflexivity. }
  rewrite EL. replace (nth n W []) with (word W i) by (unfold word, i; rewrite Nat2Z.id; reflexivity).
  apply list_ext; [rewrite zlen_zslice, word_W_len by lia; reflexivity|].
  intros j Hj. rewrite zlen_zslice in Hj by lia. rewrite znth_zslice by lia. rewrite Es by lia.
  unfold kbyte. f_equal; [f_equal|]; dlia.
Qed.
Lemma evp_block_wp inp sch out : st_ok inp -> zlen out = 16 -> sched_upto (16 * (Nr + 1)) sch ->
  wp (evp_block Nr inp sch out) (fun o => o = Cipher_spec Nr W inp).
Proof.
  intros Hi Ho Hs. pose proof Hi as (Li & Bi). pose proof Hs as (Ls & Es). unfold evp_block.
  apply wp_bind, wp_sub; try lia. rewrite zslice_all_n by exact Li. rewrite all_init_ok by exact Bi. cbn [negb].
  apply wp_bind, wp_sub; try lia. rewrite zslice_all_n by exact Ls. rewrite all_init_ok by (eapply sched_bytes; exact Hs). cbn [negb].
  rewrite words_of_schedule by exact Hs. destruct (Cipher_spec_ok inp Hi) as (LC & _).
  apply wp_put; [lia|lia|]. rewrite zsplice_all by lia. reflexivity.
Qed.

(* ------------------------------------------------------------------ *)
(** ** ECB *)
Lemma aes_enc_wp im inp sch out : st_ok inp -> zlen out = 16 -> sched_upto (16 * (Nr + 1)) sch ->
  wp (aes_enc im Nr inp sch out) (fun o => o = Cipher_spec Nr W inp).
Proof. destruct im; [apply aes_enc_c_wp|apply aes_enc_ni_wp|apply evp_block_wp]. Qed.
Definition ECB_spec (inp : list Z) (n : Z) : list Z :=
  ztab (16 * n) (fun j => znth (Cipher_spec Nr W (zslice inp (16 * (j / 16)) 16)) (j mod 16)).
Lemma ECB_wp im inp sch out n : 0 <= n -> zlen inp = 16 * n -> bytes_ok inp -> zlen out = 16 * n ->
  sched_upto (16 * (Nr + 1)) sch ->
  wp (AES_ECB_enc_sch im Nr inp (16 * n) sch out) (fun o => o = ECB_spec inp n).
Proof.
  intros Hn Li Bi Lo Hs; unfold AES_ECB_enc_sch.
  apply wp_bind, wp_assert; [rewrite Z.mul_comm, Z.mod_mul by lia; reflexivity|].
  replace (16 * n / 16) with n by dlia.
  apply (wp_for (fun i o => zlen o = 16 * n /\ forall j, 0 <= j < 16 * i -> znth o j = znth (ECB_spec inp n) j)).
  - exact Hn.
  - split; [exact Lo|lia].
  - intros i o Hi (L & E).
    apply wp_bind, wp_sub; try lia.
    apply wp_bind, wp_sub; try lia.
    assert (Hst : st_ok (zslice inp (16 * i) 16)).
    { split; [rewrite zlen_zslice by lia; reflexivity|apply inrange_zslice; exact Bi]. }
    apply wp_bind; eapply wp_mono; [apply aes_enc_wp; [exact Hst|rewrite zlen_zslice by lia; reflexivity|exact Hs]|].
    intros c ->; destruct (Cipher_spec_ok _ Hst) as (Lc & _).
    apply wp_put; [lia|lia|]; split; [rewrite zlen_zsplice by lia; exact L|].
    intros j Hj; rewrite znth_zsplice by lia; rewrite Lc.
    destruct (Z.leb_spec (16 * i) j); cbn [andb]; [|apply E; lia].
    destruct (Z.ltb_spec j (16 * i + 16)); [|lia].
    unfold ECB_spec; rewrite znth_ztab by lia.
    replace (j / 16) with i by dlia; f_equal; dlia.
  - intros o (L & E); apply list_ext.
    + unfold ECB_spec; rewrite zlen_ztab; lia.
    + intros j Hj; apply E; lia.
Qed.
Lemma ECB_inplace_wp im buf sch n : 0 <= n -> zlen buf = 16 * n -> bytes_ok buf ->
  sched_upto (16 * (Nr + 1)) sch ->
  wp (AES_ECB_enc_sch_inplace im Nr buf (16 * n) sch) (fun o => o = ECB_spec buf n).
Proof.
  intros Hn Li Bi Hs; unfold AES_ECB_enc_sch_inplace.
  apply wp_bind, wp_assert; [rewrite Z.mul_comm, Z.mod_mul by lia; reflexivity|].
  replace (16 * n / 16) with n by dlia.
  apply (wp_for (fun i o => zlen o = 16 * n /\ forall j, 0 <= j < 16 * n ->
     znth o j = if j <? 16 * i then znth (ECB_spec buf n) j else znth buf j)).
  - exact Hn.
  - split; [exact Li|]. intros j Hj; destruct (Z.ltb_spec j (16 * 0)); [lia|reflexivity].
  - intros i o Hi (L & E).
    apply wp_bind, wp_sub; try lia.
    assert (Es : zslice o (16 * i) 16 = zslice buf (16 * i) 16).
    { apply list_ext; [rewrite !zlen_zslice by lia; reflexivity|].
      rewrite zlen_zslice by lia; intros k Hk; rewrite !znth_zslice by lia; rewrite E by lia.
      destruct (Z.ltb_spec (16 * i + k) (16 * i)); [lia|reflexivity]. }
    rewrite Es.
    assert (Hst : st_ok (zslice buf (16 * i) 16)).
    { split; [rewrite zlen_zslice by lia; reflexivity|apply inrange_zslice; exact Bi]. }
    apply wp_bind; eapply wp_mono; [apply aes_enc_wp; [exact Hst|rewrite zlen_zslice by lia; reflexivity|exact Hs]|].
    intros c ->; destruct (Cipher_spec_ok _ Hst) as (Lc & _).
    apply wp_put; [lia|lia|]; split; [rewrite zlen_zsplice by lia; exact L|].
    intros j Hj; rewrite znth_zsplice by lia; rewrite Lc.
    destruct (Z.leb_spec (16 * i) j); cbn [andb].
    2:{ rewrite E by lia; destruct (Z.ltb_spec j (16 * i)), (Z.ltb_spec j (16 * (i + 1))); try lia; reflexivity. }
    destruct (Z.ltb_spec j (16 * i + 16)), (Z.ltb_spec j (16 * (i + 1))); try lia.
    + unfold ECB_spec; rewrite znth_ztab by lia.
      replace (j / 16) with i by dlia; f_equal; dlia.
    + rewrite E by lia; destruct (Z.ltb_spec j (16 * i)); [lia|reflexivity].
  - intros o (L & E); apply list_ext.
    + unfold ECB_spec; rewrite zlen_ztab; lia.
    + intros j Hj; rewrite E by lia; destruct (Z.ltb_spec j (16 * n)); [reflexivity|lia].
Qed.
End Key.
