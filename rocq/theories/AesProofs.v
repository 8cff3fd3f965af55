(** The AES code computes FIPS 197. *)
From Verif Require Import CSem Params Aes AesSpec KeccakProofs.

(* ------------------------------------------------------------------ *)
(** ** Bytes *)
Definition byte (x : Z) : Prop := 0 <= x < 256.
Lemma byte_sweep (P : Z -> bool) : forallb P (zseq 256) = true -> forall x, byte x -> P x = true.
Proof.
  intros H x Hx; rewrite forallb_forall in H; apply H.
  unfold zseq; apply in_map_iff; exists (Z.to_nat x); split; [unfold byte in *; lia|].
  apply in_seq; unfold byte in *; lia.
Qed.
Lemma byte_lxor a b : byte a -> byte b -> byte (Z.lxor a b).
Proof. intros; apply (lxor_range 8); cbn; unfold byte in *; lia. Qed.

Lemma sbox_table : forallb (fun x => (znth sbox x =? Sbox x) && (0 <=? Sbox x) && (Sbox x <? 256)) (zseq 256) = true.
Proof. vm_compute. reflexivity. Qed.
Lemma sbox_Sbox x : byte x -> znth sbox x = Sbox x.
Proof.
  intros Hx; pose proof (byte_sweep _ sbox_table x Hx) as H; cbv beta in H.
  apply andb_prop in H; destruct H as (H & _); apply andb_prop in H; lia.
Qed.
Lemma Sbox_byte x : byte x -> byte (Sbox x).
Proof.
  intros Hx; pose proof (byte_sweep _ sbox_table x Hx) as H; cbv beta in H.
  apply andb_prop in H; destruct H as (H & ?); apply andb_prop in H; unfold byte; lia.
Qed.
Lemma zlen_sbox : zlen sbox = 256. Proof. reflexivity. Qed.
Lemma getSBoxValue_wp x (Q : Z -> Prop) : byte x -> Q (Sbox x) -> wp (getSBoxValue x) Q.
Proof.
  intros Hx HQ; unfold getSBoxValue; apply wp_rd.
  - rewrite zlen_sbox; exact Hx.
  - rewrite sbox_Sbox by exact Hx; apply Sbox_byte in Hx; unfold byte in Hx; lia.
  - rewrite sbox_Sbox by exact Hx; exact HQ.
Qed.

Lemma mulx_table : forallb (fun x => (xtime x =? mulx x) && (gmul 2 x =? mulx x) &&
  (gmul 3 x =? Z.lxor (mulx x) x) && (gmul 1 x =? x) && (0 <=? mulx x) && (mulx x <? 256) &&
  (hw_mulx x =? mulx x) &&
  (mulx x =? Z.lxor (Z.shiftl x 1) (if Z.testbit x 7 then 283 else 0))) (zseq 256) = true.
Proof. vm_compute. reflexivity. Qed.
Lemma mulx_facts x : byte x -> xtime x = mulx x /\ gmul 2 x = mulx x /\ gmul 3 x = Z.lxor (mulx x) x /\
  gmul 1 x = x /\ byte (mulx x) /\ hw_mulx x = mulx x /\
  mulx x = Z.lxor (Z.shiftl x 1) (if Z.testbit x 7 then 283 else 0).
Proof.
  intros Hx; pose proof (byte_sweep _ mulx_table x Hx) as H; cbv beta in H.
  repeat match goal with H : _ && _ = true |- _ => apply andb_prop in H; destruct H end.
  unfold byte; repeat split; lia.
Qed.
Ltac lxor_solve := apply Z.bits_inj'; intros ? ?; rewrite ?Z.lxor_spec, ?Z.bits_0;
  repeat match goal with |- context [Z.testbit ?a ?b] => destruct (Z.testbit a b) end; reflexivity.
Lemma mulx_lxor a b : byte a -> byte b -> mulx (Z.lxor a b) = Z.lxor (mulx a) (mulx b).
Proof.
  intros Ha Hb.
  destruct (mulx_facts a Ha) as (_ & _ & _ & _ & _ & _ & ->).
  destruct (mulx_facts b Hb) as (_ & _ & _ & _ & _ & _ & ->).
  destruct (mulx_facts _ (byte_lxor _ _ Ha Hb)) as (_ & _ & _ & _ & _ & _ & ->).
  rewrite Z.shiftl_lxor, Z.lxor_spec.
  generalize (Z.shiftl a 1) (Z.shiftl b 1); intros u v.
  destruct (Z.testbit a 7), (Z.testbit b 7); cbn [xorb]; lxor_solve.
Qed.

(* ------------------------------------------------------------------ *)
(** ** The rounds of aes_c.c *)
Definition st_ok (s : list Z) : Prop := zlen s = 16 /\ bytes_ok s.
Lemma st_byte s k : bytes_ok s -> byte (znth s k).
Proof. intros H; apply (inrange_znth_all 256 s k); [lia|exact H]. Qed.
Lemma st_intro s : zlen s = 16 -> (forall k, 0 <= k < 16 -> byte (znth s k)) -> st_ok s.
Proof. intros H1 H2; split; [exact H1|apply inrange_intro; rewrite H1; exact H2]. Qed.

Lemma AddRoundKey_wp s rk r : st_ok s -> bytes_ok rk -> 0 <= r -> 16 * r + 16 <= zlen rk ->
  wp (AddRoundKey s rk r) (fun s' => s' = AddRoundKey_spec s (zslice rk (16 * r) 16)).
Proof.
  intros (Hl & Hb) Hk Hr Hlen.
  apply (wp_for (fun i s' => zlen s' = 16 /\ forall k, 0 <= k < 16 ->
    znth s' k = if k <? 4 * i then Z.lxor (znth s k) (znth rk (16 * r + k)) else znth s k)).
  - lia.
  - split; [exact Hl|intros k Hkk; destruct (Z.ltb_spec k (4 * 0)); [lia|reflexivity]].
  - intros i s1 Hi (L1 & E1).
    apply (wp_for (fun j s' => zlen s' = 16 /\ forall k, 0 <= k < 16 ->
      znth s' k = if k <? 4 * i + j then Z.lxor (znth s k) (znth rk (16 * r + k)) else znth s k)).
    + lia.
    + split; [exact L1|intros k Hkk; rewrite E1 by exact Hkk; replace (4 * i + 0) with (4 * i) by lia; reflexivity].
    + intros j s2 Hj (L2 & E2).
      assert (Ex : znth s2 (stix i j) = znth s (stix i j)).
      { unfold stix; rewrite E2 by lia; destruct (Z.ltb_spec (4 * i + j) (4 * i + j)); [lia|reflexivity]. }
      apply wp_bind, wp_rd; [unfold stix; lia|rewrite Ex; apply (st_byte s _ Hb)|].
      apply wp_bind, wp_rd; [lia|apply (st_byte rk _ Hk)|].
      apply wp_wr; [unfold stix; lia|].
      split; [rewrite zlen_zset; exact L2|].
      intros k Hkk; rewrite znth_zset by (rewrite L2; unfold stix; lia).
      destruct (Z.eqb_spec (stix i j) k) as [<-|N].
      * unfold stix in *.
        destruct (Z.ltb_spec (4 * i + j) (4 * i + (j + 1))); [|lia].
        rewrite Ex; f_equal; f_equal; lia.
      * unfold stix in *.
        rewrite E2 by exact Hkk.
        destruct (Z.ltb_spec k (4 * i + j)), (Z.ltb_spec k (4 * i + (j + 1))); try lia; reflexivity.
    + intros s2 (L2 & E2); split; [exact L2|].
      intros k Hkk; rewrite E2 by exact Hkk.
      replace (4 * i + 4) with (4 * (i + 1)) by lia; reflexivity.
  - intros s1 (L1 & E1); apply list_ext.
    + unfold AddRoundKey_spec, xorlist; rewrite zlen_ztab; lia.
    + intros k Hkk; rewrite L1 in Hkk; rewrite E1 by exact Hkk.
      destruct (Z.ltb_spec k (4 * 4)); [|lia].
      unfold AddRoundKey_spec, xorlist; rewrite znth_ztab by lia.
      rewrite znth_zslice by lia; reflexivity.
Qed.

Lemma SubBytes_wp s : st_ok s -> wp (SubBytes s) (fun s' => s' = SubBytes_spec s).
Proof.
  intros (Hl & Hb).
  apply (wp_for (fun i s' => zlen s' = 16 /\ forall k, 0 <= k < 16 ->
    znth s' k = if k mod 4 <? i then Sbox (znth s k) else znth s k)).
  - lia.
  - split; [exact Hl|intros k Hkk; destruct (Z.ltb_spec (k mod 4) 0); [dlia|reflexivity]].
  - intros i s1 Hi (L1 & E1).
    apply (wp_for (fun j s' => zlen s' = 16 /\ forall k, 0 <= k < 16 ->
      znth s' k = if (k mod 4 <? i) || ((k mod 4 =? i) && (k / 4 <? j)) then Sbox (znth s k) else znth s k)).
    + lia.
    + split; [exact L1|intros k Hkk; rewrite E1 by exact Hkk].
      destruct (Z.ltb_spec (k / 4) 0); [dlia|]; rewrite andb_false_r, orb_false_r; reflexivity.
    + intros j s2 Hj (L2 & E2).
      assert (Em : stix j i mod 4 = i) by (unfold stix; dlia).
      assert (Ed : stix j i / 4 = j) by (unfold stix; dlia).
      assert (Rk : 0 <= stix j i < 16) by (unfold stix; lia).
      assert (Ex : znth s2 (stix j i) = znth s (stix j i)).
      { rewrite E2 by exact Rk; rewrite Em, Ed, Z.ltb_irrefl, Z.eqb_refl, Z.ltb_irrefl; reflexivity. }
      apply wp_bind, wp_rd; [lia|rewrite Ex; apply (st_byte s _ Hb)|].
      apply wp_bind; rewrite Ex; apply getSBoxValue_wp; [apply st_byte; exact Hb|].
      apply wp_wr; [lia|].
      split; [rewrite zlen_zset; exact L2|].
      intros k Hkk; rewrite znth_zset by (rewrite L2; exact Rk).
      destruct (Z.eqb_spec (stix j i) k) as [<-|N].
      * rewrite Em, Ed.
        rewrite Z.eqb_refl; destruct (Z.ltb_spec j (j + 1)); [|lia]; rewrite orb_true_r; reflexivity.
      * rewrite E2 by exact Hkk.
        unfold stix in N.
        destruct (Z.ltb_spec (k mod 4) i); cbn [orb]; [reflexivity|].
        destruct (Z.eqb_spec (k mod 4) i); cbn [andb]; [|reflexivity].
        destruct (Z.ltb_spec (k / 4) j), (Z.ltb_spec (k / 4) (j + 1)); try reflexivity; exfalso; dlia.
    + intros s2 (L2 & E2); split; [exact L2|].
      intros k Hkk; rewrite E2 by exact Hkk.
      destruct (Z.ltb_spec (k / 4) 4); [|dlia]; rewrite andb_true_r.
      destruct (Z.ltb_spec (k mod 4) i), (Z.ltb_spec (k mod 4) (i + 1)), (Z.eqb_spec (k mod 4) i);
        try reflexivity; lia.
  - intros s1 (L1 & E1); apply list_ext.
    + unfold SubBytes_spec; rewrite zlen_map; lia.
    + intros k Hkk; rewrite L1 in Hkk; rewrite E1 by exact Hkk.
      destruct (Z.ltb_spec (k mod 4) 4); [|dlia].
      unfold SubBytes_spec; rewrite znth_map by lia; reflexivity.
Qed.

(** A list of length 16 is 16 variables. *)
Ltac explode16 s H :=
  let rec go n s H :=
    match n with
    | O => destruct s as [|? ?]; [|exfalso; cbn in H; lia]
    | Datatypes.S ?m => let x := fresh "x" in destruct s as [|x s]; [exfalso; cbn in H; lia|];
           go m s H
    end in go 16%nat s H.

Lemma ShiftRows_wp s : st_ok s -> wp (ShiftRows s) (fun s' => s' = ShiftRows_spec s).
Proof.
  intros (Hl & Hb).
  assert (B : forall k, byte (znth s k)) by (intros; apply st_byte; exact Hb).
  unfold zlen in Hl; explode16 s Hl.
  assert (C := fun k => proj1 (B k)); clear B.
  pose proof (C 0) as C0; pose proof (C 1) as C1; pose proof (C 2) as C2; pose proof (C 3) as C3.
  pose proof (C 4) as C4; pose proof (C 5) as C5; pose proof (C 6) as C6; pose proof (C 7) as C7.
  pose proof (C 8) as C8; pose proof (C 9) as C9; pose proof (C 10) as C10; pose proof (C 11) as C11.
  pose proof (C 12) as C12; pose proof (C 13) as C13; pose proof (C 14) as C14; pose proof (C 15) as C15.
  clear C Hb; cbn in C0, C1, C2, C3, C4, C5, C6, C7, C8, C9, C10, C11, C12, C13, C14, C15.
  unfold ShiftRows.
  repeat (apply wp_bind;
    first [ apply wp_rd; [cbn; lia|cbn; assumption|cbn [znth stix Z.ltb Z.compare nth]]
          | apply wp_wr; [cbn; lia|] ];
    lazymatch goal with |- wp (bind ?m _) _ => idtac | _ => idtac end;
    cbv [znth zset stix Z.mul Z.add Z.ltb Z.compare Pos.mul Pos.add Pos.succ Z.to_nat Pos.to_nat Pos.iter_op Init.Nat.add nth upd]).
  apply wp_wr; [cbn; lia|].
  vm_compute. reflexivity.
Qed.

Lemma MixColumns_wp s : st_ok s -> wp (MixColumns s) (fun s' => s' = MixColumns_spec s).
Proof.
  intros (Hl & Hb).
  apply (wp_for (fun i s' => zlen s' = 16 /\ forall k, 0 <= k < 16 ->
    znth s' k = if k / 4 <? i then znth (MixColumns_spec s) k else znth s k)).
  - lia.
  - split; [exact Hl|intros k Hkk; destruct (Z.ltb_spec (k / 4) 0); [dlia|reflexivity]].
  - intros i s1 Hi (L1 & E1).
    assert (Col : forall r, 0 <= r < 4 -> znth s1 (stix i r) = znth s (stix i r)).
    { intros r Hr; rewrite E1 by (unfold stix; lia).
      destruct (Z.ltb_spec (stix i r / 4) i); [unfold stix in *; dlia|reflexivity]. }
    pose proof (Col 0 ltac:(lia)) as A0; pose proof (Col 1 ltac:(lia)) as A1;
    pose proof (Col 2 ltac:(lia)) as A2; pose proof (Col 3 ltac:(lia)) as A3; clear Col.
    assert (M : forall r, 0 <= r < 4 -> znth (MixColumns_spec s) (stix i r) =
       let m j := gmul (znth [2; 3; 1; 1] ((j - r) mod 4)) (znth s (stix i j)) in
       Z.lxor (Z.lxor (Z.lxor (m 0) (m 1)) (m 2)) (m 3)).
    { intros r Hr; unfold MixColumns_spec; rewrite znth_ztab by (unfold stix; lia); cbv zeta.
      replace (stix i r mod 4) with r by (unfold stix; dlia).
      replace (stix i r / 4) with i by (unfold stix; dlia).
      unfold stix; rewrite !(Z.add_comm _ (4 * i)); reflexivity. }
    pose proof (M 0 ltac:(lia)) as M0; pose proof (M 1 ltac:(lia)) as M1;
    pose proof (M 2 ltac:(lia)) as M2; pose proof (M 3 ltac:(lia)) as M3; clear M.
    cbv zeta in M0, M1, M2, M3; cbn [Z.sub] in M0, M1, M2, M3.
    change (znth [2;3;1;1] ((0-0) mod 4)) with 2 in M0; change (znth [2;3;1;1] ((1-0) mod 4)) with 3 in M0;
    change (znth [2;3;1;1] ((2-0) mod 4)) with 1 in M0; change (znth [2;3;1;1] ((3-0) mod 4)) with 1 in M0.
    change (znth [2;3;1;1] ((0-1) mod 4)) with 1 in M1; change (znth [2;3;1;1] ((1-1) mod 4)) with 2 in M1;
    change (znth [2;3;1;1] ((2-1) mod 4)) with 3 in M1; change (znth [2;3;1;1] ((3-1) mod 4)) with 1 in M1.
    change (znth [2;3;1;1] ((0-2) mod 4)) with 1 in M2; change (znth [2;3;1;1] ((1-2) mod 4)) with 1 in M2;
    change (znth [2;3;1;1] ((2-2) mod 4)) with 2 in M2; change (znth [2;3;1;1] ((3-2) mod 4)) with 3 in M2.
    change (znth [2;3;1;1] ((0-3) mod 4)) with 3 in M3; change (znth [2;3;1;1] ((1-3) mod 4)) with 1 in M3;
    change (znth [2;3;1;1] ((2-3) mod 4)) with 1 in M3; change (znth [2;3;1;1] ((3-3) mod 4)) with 2 in M3.
    pose proof (st_byte s (stix i 0) Hb) as B0; pose proof (st_byte s (stix i 1) Hb) as B1;
    pose proof (st_byte s (stix i 2) Hb) as B2; pose proof (st_byte s (stix i 3) Hb) as B3.
    revert A0 A1 A2 A3 M0 M1 M2 M3 B0 B1 B2 B3.
    generalize (znth s (stix i 0)) (znth s (stix i 1)) (znth s (stix i 2)) (znth s (stix i 3)).
    intros a0 a1 a2 a3 A0 A1 A2 A3 M0 M1 M2 M3 B0 B1 B2 B3.
    assert (R : forall r, 0 <= r < 4 -> 0 <= stix i r < 16) by (intros; unfold stix; lia).
    assert (D : forall r r', r <> r' -> stix i r <> stix i r') by (intros; unfold stix; lia).
    pose proof (byte_lxor _ _ B0 B1) as X01; pose proof (byte_lxor _ _ B1 B2) as X12;
    pose proof (byte_lxor _ _ B2 B3) as X23; pose proof (byte_lxor _ _ B3 B0) as X30.
    destruct (mulx_facts a0 B0) as (_ & F02 & F03 & F01 & F0 & _ & _).
    destruct (mulx_facts a1 B1) as (_ & F12 & F13 & F11 & F1 & _ & _).
    destruct (mulx_facts a2 B2) as (_ & F22 & F23 & F21 & F2 & _ & _).
    destruct (mulx_facts a3 B3) as (_ & F32 & F33 & F31 & F3 & _ & _).
    rewrite F02, F13, F21, F31 in M0. rewrite F01, F12, F23, F31 in M1.
    rewrite F01, F11, F22, F33 in M2. rewrite F03, F11, F21, F32 in M3.
    destruct (mulx_facts _ X01) as (G0 & _); destruct (mulx_facts _ X12) as (G1 & _);
    destruct (mulx_facts _ X23) as (G2 & _); destruct (mulx_facts _ X30) as (G3 & _).
    rewrite mulx_lxor in G0, G1, G2, G3 by assumption.
    clear F02 F03 F01 F12 F13 F11 F22 F23 F21 F32 F33 F31.
    pose proof (proj1 B0) as P0; pose proof (proj1 B1) as P1; pose proof (proj1 B2) as P2; pose proof (proj1 B3) as P3.
    Ltac mrd := apply wp_bind, wp_rd;
      [rewrite ?zlen_zset; match goal with H : zlen _ = 16 |- _ => rewrite H end; match goal with H : forall r, _ -> 0 <= stix _ r < 16 |- _ => apply H end; lia
      | rewrite ?znth_zset_ne by (rewrite ?zlen_zset; first [match goal with H : zlen _ = 16 |- _ => rewrite H end; match goal with H : forall r, _ -> 0 <= stix _ r < 16 |- _ => apply H end; lia | match goal with H : forall r r', _ -> stix _ r <> _ |- _ => apply H end; lia])
      | rewrite ?znth_zset_ne by (rewrite ?zlen_zset; first [match goal with H : zlen _ = 16 |- _ => rewrite H end; match goal with H : forall r, _ -> 0 <= stix _ r < 16 |- _ => apply H end; lia | match goal with H : forall r r', _ -> stix _ r <> _ |- _ => apply H end; lia])].
    Ltac mwr := apply wp_wr; [rewrite ?zlen_zset; match goal with H : zlen _ = 16 |- _ => rewrite H end; match goal with H : forall r, _ -> 0 <= stix _ r < 16 |- _ => apply H end; lia|].
    repeat (mrd; [lia|]; rewrite ?A0, ?A1, ?A2, ?A3). cbv zeta.
    repeat first [ mrd; [lia|]; rewrite ?A0, ?A1, ?A2, ?A3 | apply wp_bind; mwr | mwr ].
    cbv zeta; rewrite G0, G1, G2, G3.
    split; [rewrite !zlen_zset; exact L1|].
    intros k Hkk; rewrite !znth_zset by (rewrite ?zlen_zset, L1; apply R; lia).
    destruct (Z.ltb_spec (k / 4) (i + 1)) as [Hlt|Hge].
    + destruct (Z.eqb_spec (stix i 3) k) as [<-|N3]; [rewrite M3; lxor_solve|].
      destruct (Z.eqb_spec (stix i 2) k) as [<-|N2]; [rewrite M2; lxor_solve|].
      destruct (Z.eqb_spec (stix i 1) k) as [<-|N1]; [rewrite M1; lxor_solve|].
      destruct (Z.eqb_spec (stix i 0) k) as [<-|N0]; [rewrite M0; lxor_solve|].
      rewrite E1 by exact Hkk; unfold stix in *.
      destruct (Z.ltb_spec (k / 4) i); [reflexivity|exfalso; dlia].
    + destruct (Z.eqb_spec (stix i 3) k) as [<-|N3]; [unfold stix in *; exfalso; dlia|].
      destruct (Z.eqb_spec (stix i 2) k) as [<-|N2]; [unfold stix in *; exfalso; dlia|].
      destruct (Z.eqb_spec (stix i 1) k) as [<-|N1]; [unfold stix in *; exfalso; dlia|].
      destruct (Z.eqb_spec (stix i 0) k) as [<-|N0]; [unfold stix in *; exfalso; dlia|].
      rewrite E1 by exact Hkk; unfold stix in *.
      destruct (Z.ltb_spec (k / 4) i); [lia|reflexivity].
  - intros s1 (L1 & E1); apply list_ext.
    + unfold MixColumns_spec; rewrite zlen_ztab; lia.
    + intros k Hkk; rewrite L1 in Hkk; rewrite E1 by exact Hkk.
      destruct (Z.ltb_spec (k / 4) 4); [reflexivity|dlia].
Qed.
