(** Multiplication: A*S + E and S'*A + E' in all builds. *)
From Verif Require Import CSem Params Aes MatrixSpec Macrify MatrixProofs.

Lemma s16_cong x : exists k, s16 x = x + k * 65536.
Proof.
  unfold s16; destruct (Z.ltb_spec (x mod 65536) 32768).
  - exists (- (x / 65536)); pose proof (Z.div_mod x 65536); lia.
  - exists (- (x / 65536) - 1); pose proof (Z.div_mod x 65536); lia.
Qed.
Lemma s16_range x : -32768 <= s16 x < 32768.
Proof. unfold s16; destruct (Z.ltb_spec (x mod 65536) 32768); pose proof (Z.mod_pos_bound x 65536); lia. Qed.
(** The sum and the product never overflow an int (C19). *)
Lemma mac_wp sum x y (Q : Z -> Prop) : 0 <= sum < 65536 -> 0 <= y < 65536 ->
  Q ((sum + x * y) mod 65536) -> wp (mac sum x y) Q.
Proof.
  intros Hs Hy HQ; unfold mac; pose proof (s16_range x) as Hr.
  assert (-2147450880 <= s16 x * y <= 2147385345) by
    (split; [pose proof (Z.mul_le_mono_nonneg_r (-32768) (s16 x) y); lia
            |pose proof (Z.mul_le_mono_nonneg_r (s16 x) 32767 y); lia]).
  apply wp_bind, wp_i32; [lia|]. apply wp_bind, wp_i32; [lia|]. apply wp_ret.
  unfold u16. destruct (s16_cong x) as (k & ->).
  replace (sum + (x + k * 65536) * y) with (sum + x * y + (k * y) * 65536) by lia.
  rewrite Z.mod_add by lia. exact HQ.
Qed.
Lemma mod16_range x : 0 <= x mod 65536 < 65536. Proof. apply Z.mod_pos_bound; lia. Qed.
Lemma mod16_add x y : (x mod 65536 + y) mod 65536 = (x + y) mod 65536.
Proof. apply Zplus_mod_idemp_l. Qed.
Lemma mod16_add_r x y : (x + y mod 65536) mod 65536 = (x + y) mod 65536.
Proof. apply Zplus_mod_idemp_r. Qed.

(** Reading and adding to an entry of a matrix. *)
Section Mat.
Variable N : Z.
Hypothesis HN : 0 < N <= 32768.
Lemma rd_mat R A f k q j (Q : Z -> Prop) : mat N R A f -> k = q * N + j -> 0 <= q < R -> 0 <= j < N ->
  (0 <= f q j < 65536 -> Q (f q j)) -> wp (rd A k) Q.
Proof.
  intros (L & U & E) -> Hq Hj HQ.
  pose proof (idx_lt N HN R q j Hq Hj) as Hi.
  assert (Hr : 0 <= znth A (q * N + j) < 65536) by (apply inrange_znth; [exact U|lia]).
  apply wp_rd; [lia|lia|]. rewrite E in * by auto. auto.
Qed.
Lemma add_to_mat R A f k q j v (Q : list Z -> Prop) : mat N R A f -> k = q * N + j -> 0 <= q < R -> 0 <= j < N ->
  0 <= v < 65536 ->
  (forall A', mat N R A' (upd2 f q j ((f q j + v) mod 65536)) -> Q A') -> wp (add_to A k v) Q.
Proof.
  intros HM Hk Hq Hj Hv HQ; unfold add_to.
  apply wp_bind; eapply rd_mat; eauto; intros Hr.
  apply wp_bind, wp_i32; [lia|]. unfold u16.
  eapply wr_mat; eauto. apply mod16_range.
Qed.
Lemma mat_fun R A f : mat N R A f -> 0 <= R -> A = ztab (R * N) (fun k => f (k / N) (k mod N)).
Proof.
  intros (L & U & E) HR; apply list_ext.
  - rewrite zlen_ztab; [exact L|apply Z.mul_nonneg_nonneg; lia].
  - intros k Hk; rewrite znth_ztab by lia.
    assert (Hkm := Z.mod_pos_bound k N ltac:(lia)). assert (Hkd := Z.div_mod k N ltac:(lia)).
    assert (Hkq : 0 <= k / N < R).
    { split; [apply Z.div_pos; lia|]. apply Z.div_lt_upper_bound; [lia|]. rewrite Z.mul_comm; lia. }
    rewrite <- E by auto. f_equal. rewrite Hkd at 1. lia.
Qed.
End Mat.

Lemma UINT16_TO_LE_inv en x : 0 <= x < 65536 -> UINT16_TO_LE en (LE_TO_UINT16 en x) = x.
Proof.
  intros; destruct en; cbn [UINT16_TO_LE LE_TO_UINT16]; [reflexivity|].
  rewrite (swap16 x) by lia. rewrite swap16; dlia.
Qed.
Section Mul.
Variables (en : endian) (N : Z) (seedA : list Z) (g : genA).
Hypothesis HN : 0 < N <= 32768.
Hypothesis HN16 : N mod 16 = 0.
Hypothesis Hseed : zlen seedA = 16.
Hypothesis Hseedb : bytes_ok seedA.
Let A := A_spec g N seedA.

Definition as_result (s e : list Z) : list Z :=
  ztab (N * 8) (fun t => AS_E N A s e (t / 8) (t mod 8) mod 65536).
Definition sa_result (s e : list Z) : list Z :=
  ztab (8 * N) (fun t => SA_E N A s e (t / N) (t mod N) mod 65536).

Variables (out s e : list Z).
Hypothesis Lout : zlen out = N * 8.
Hypothesis Ls : zlen s = N * 8.
Hypothesis Us : u16s_ok s.
Hypothesis Le : zlen e = N * 8.
Hypothesis Ue : u16s_ok e.
Lemma H8 : 0 < 8 <= 32768. Proof. lia. Qed.
Lemma s_mat : mat N 8 s (fun k j => znth s (k * N + j)).
Proof. apply mat_intro; auto. lia. Qed.

Lemma copy_e n : n = N * 8 -> wp (memcpy out 0 e 0 n) (fun o => o = e).
Proof.
  intros ->; apply wp_memcpy; try lia. rewrite zslice_all_n by lia.
  apply zsplice_all; lia.
Qed.
Lemma e_mat8 : mat 8 N e (fun q k => znth e (8 * q + k)).
Proof.
  eapply mat_ext; [|apply mat_intro; auto]. intros; cbv beta; f_equal; lia.
Qed.
Lemma e_matN : mat N 8 e (fun k j => znth e (k * N + j)).
Proof. apply mat_intro; auto; lia. Qed.

Lemma ref_as_wp im : wp (ref_as_plus_e en g im N out s e seedA) (fun o => o = as_result s e).
Proof.
  unfold ref_as_plus_e. apply wp_bind; eapply wp_mono; [apply ref_genA_wp; auto|]. intros M HM.
  apply wp_bind; eapply wp_mono; [apply copy_e; unfold NBAR; lia|]. intros o ->.
  apply (wp_for (fun i o => mat 8 N o (fun q k => if q <? i then AS_E N A s e q k mod 65536 else znth e (8 * q + k)))).
  - lia.
  - eapply mat_ext; [|apply e_mat8]. intros; cbv beta; destruct (Z.ltb_spec q 0); [lia|reflexivity].
  - intros i o Hi Ho.
    apply (wp_for (fun k o => mat 8 N o (fun q k' => if q <? i then AS_E N A s e q k' mod 65536
       else if (q =? i) && (k' <? k) then AS_E N A s e q k' mod 65536 else znth e (8 * q + k')))).
    + unfold NBAR; lia.
    + eapply mat_ext; [|exact Ho]. intros; cbv beta. destruct (q <? i); [reflexivity|].
      destruct (Z.ltb_spec j 0); [lia|]. now rewrite andb_false_r.
    + clear o Ho. unfold NBAR. intros k o Hk Ho.
      apply wp_bind; eapply wp_mono with (P := fun sum => sum = zsum N (fun j => A i j * znth s (k * N + j)) mod 65536).
      { apply (wp_for (fun j sum => sum = zsum j (fun j => A i j * znth s (k * N + j)) mod 65536)).
        - lia.
        - reflexivity.
        - intros j sum Hj ->. apply wp_bind; eapply (rd_mat N HN); [exact HM|reflexivity|lia|lia|]; intros Ha.
          apply wp_bind; eapply (rd_mat N HN); [apply s_mat|reflexivity|lia|lia|]; intros Hs.
          apply mac_wp; [apply mod16_range|exact Hs|]. rewrite mod16_add, zsum_succ by lia. reflexivity.
        - auto. }
      intros sum ->. eapply add_to_mat; [apply H8|exact Ho|reflexivity|lia|lia|apply mod16_range|].
      intros o' Ho'; eapply mat_ext; [|exact Ho']. intros q k' Hq Hk'; unfold upd2.
      rewrite Z.ltb_irrefl.
      destruct (Z.ltb_spec q i).
      { destruct (Z.eqb_spec q i); [lia|reflexivity]. }
      destruct (Z.eqb_spec q i) as [->|]; cbn [andb]; [|reflexivity].
      destruct (Z.eqb_spec k' k) as [->|].
      * rewrite Z.eqb_refl, Z.ltb_irrefl; cbn [andb]. destruct (Z.ltb_spec k (k + 1)); [|lia].
        rewrite mod16_add_r. reflexivity.
      * destruct (Z.ltb_spec k' k), (Z.ltb_spec k' (k + 1)); try lia; reflexivity.
    + clear o Ho. intros o Ho; eapply mat_ext; [|exact Ho]. intros q k Hq Hk; cbv beta. unfold NBAR.
      destruct (Z.ltb_spec q i), (Z.ltb_spec q (i + 1)); try lia; try reflexivity.
      * destruct (Z.eqb_spec q i); [|lia]. destruct (Z.ltb_spec k 8); [reflexivity|lia].
      * destruct (Z.eqb_spec q i); [lia|reflexivity].
  - intros o Ho. unfold as_result.
    assert (Ho' : mat 8 N o (fun q k => AS_E N A s e q k mod 65536)).
    { eapply mat_ext; [|exact Ho]. intros; cbv beta. destruct (Z.ltb_spec q N); [reflexivity|lia]. }
    apply (mat_fun 8 H8 N o _ Ho'); lia.
Qed.

Lemma ref_sa_wp im : wp (ref_sa_plus_e en g im N out s e seedA) (fun o => o = sa_result s e).
Proof.
  unfold ref_sa_plus_e. apply wp_bind; eapply wp_mono; [apply ref_genA_wp; auto|]. intros M HM.
  apply wp_bind; eapply wp_mono; [apply copy_e; unfold NBAR; lia|]. intros o ->.
  apply (wp_for (fun i o => mat N 8 o (fun k q => if q <? i then SA_E N A s e k q mod 65536 else znth e (k * N + q)))).
  - lia.
  - eapply mat_ext; [|apply e_matN]. intros; cbv beta; destruct (Z.ltb_spec j 0); [lia|reflexivity].
  - intros i o Hi Ho.
    apply (wp_for (fun k o => mat N 8 o (fun k' q => if q <? i then SA_E N A s e k' q mod 65536
       else if (q =? i) && (k' <? k) then SA_E N A s e k' q mod 65536 else znth e (k' * N + q)))).
    + unfold NBAR; lia.
    + eapply mat_ext; [|exact Ho]. intros; cbv beta. destruct (j <? i); [reflexivity|].
      destruct (Z.ltb_spec q 0); [lia|]. now rewrite andb_false_r.
    + clear o Ho. unfold NBAR. intros k o Hk Ho.
      apply wp_bind; eapply wp_mono with (P := fun sum => sum = zsum N (fun j => znth s (k * N + j) * A j i) mod 65536).
      { apply (wp_for (fun j sum => sum = zsum j (fun j => znth s (k * N + j) * A j i) mod 65536)).
        - lia.
        - reflexivity.
        - intros j sum Hj ->. apply wp_bind; eapply (rd_mat N HN); [exact HM|reflexivity|lia|lia|]; intros Ha.
          apply wp_bind; eapply (rd_mat N HN); [apply s_mat|reflexivity|lia|lia|]; intros Hs.
          apply mac_wp; [apply mod16_range|exact Hs|]. rewrite mod16_add, zsum_succ by lia.
          rewrite (Z.mul_comm (A_spec g N seedA j i)). reflexivity.
        - auto. }
      intros sum ->. eapply add_to_mat; [apply HN|exact Ho|reflexivity|lia|lia|apply mod16_range|].
      intros o' Ho'; eapply mat_ext; [|exact Ho']. intros k' q Hk' Hq; unfold upd2.
      rewrite Z.ltb_irrefl.
      destruct (Z.ltb_spec q i).
      { destruct (Z.eqb_spec q i); [lia|]. rewrite andb_false_r; reflexivity. }
      destruct (Z.eqb_spec q i) as [->|]; cbn [andb]; [|rewrite andb_false_r; reflexivity].
      rewrite andb_true_r. destruct (Z.eqb_spec k' k) as [->|].
      * rewrite Z.eqb_refl, Z.ltb_irrefl; cbn [andb]. destruct (Z.ltb_spec k (k + 1)); [|lia].
        rewrite mod16_add_r. reflexivity.
      * destruct (Z.ltb_spec k' k), (Z.ltb_spec k' (k + 1)); try lia; reflexivity.
    + clear o Ho. intros o Ho; eapply mat_ext; [|exact Ho]. intros k q Hk Hq; cbv beta. unfold NBAR.
      destruct (Z.ltb_spec q i), (Z.ltb_spec q (i + 1)); try lia; try reflexivity.
      * destruct (Z.eqb_spec q i); [|lia]. destruct (Z.ltb_spec k 8); [reflexivity|lia].
      * destruct (Z.eqb_spec q i); [lia|reflexivity].
  - intros o Ho. unfold sa_result.
    assert (Ho' : mat N 8 o (fun k q => SA_E N A s e k q mod 65536)).
    { eapply mat_ext; [|exact Ho]. intros; cbv beta. destruct (Z.ltb_spec j N); [reflexivity|lia]. }
    apply (mat_fun N HN 8 o _ Ho'); lia.
Qed.

(* ------------------------------------------------------------------ *)
Lemma opt_as_wp im avx : wp (opt_as_plus_e en g im avx N out s e seedA) (fun o => o = as_result s e).
Proof.
  unfold opt_as_plus_e. apply wp_bind; eapply wp_mono with (P := fun o => o = e).
  { eapply (wp_for_step (fun k o => zlen o = N * 8 /\ forall t, 0 <= t < 2 * k -> znth o t = znth e t) 0 _ 2 (N * 4)).
    - lia.
    - lia.
    - unfold NBAR; lia.
    - split; [auto|lia].
    - intros k o Hk (L & E). apply wp_bind, wp_sub; try lia.
      apply wp_put; [lia|rewrite zlen_zslice by lia; lia|].
      split; [rewrite zlen_zsplice; rewrite ?zlen_zslice; lia|].
      intros t Ht. rewrite znth_zsplice by (rewrite ?zlen_zslice; lia). rewrite zlen_zslice by lia.
      destruct (Z.leb_spec (0 + k * 2) t); cbn [andb]; [|apply E; lia].
      destruct (Z.ltb_spec t (0 + k * 2 + 2)); [|lia].
      rewrite znth_zslice by lia. f_equal; lia.
    - intros o (L & E); apply list_ext; [lia|]. intros; apply E; lia. }
  intros o ->.
  apply wp_bind; eapply wp_mono; [apply as_init_wp; auto|]. intros st Hst.
  apply wp_bind.
  eapply (wp_for_step (fun b '(o, a_row, st) => gst_ok en N seedA g 4 st /\ zlen a_row = 4 * N /\ u16s_ok a_row /\
    mat 8 N o (fun q k => if q <? 4 * b then AS_E N A s e q k mod 65536 else znth e (8 * q + k))) 0 N 4 (N / 4)).
  - lia.
  - dlia.
  - dlia.
  - split; [exact Hst|]. destruct (mat_zero N HN 4 ltac:(lia)) as (L0 & U0 & _).
    split; [exact L0|]. split; [exact U0|]. eapply mat_ext; [|apply e_mat8].
    intros; cbv beta; destruct (Z.ltb_spec q (4 * 0)); [lia|reflexivity].
  - clear st Hst. intros b ((o, a_row), st) Hb (Hst & La & Ua & Ho).
    assert (Hb4 : 4 * b + 4 <= N) by dlia. replace (0 + b * 4) with (4 * b) by lia.
    apply wp_bind; eapply wp_mono; [apply (as_rows_wp en N seedA HN HN16 Hseed Hseedb g); auto; lia|].
    intros (a1, st1) (HR & Hst1); cbn [fst snd] in *; pose proof HR as (L1 & U1 & _).
    apply wp_bind; eapply wp_mono; [apply le_to_host_wp; auto|]. intros a2 ->.
    pose proof (rows_host en N seedA HN g 4 (4 * b) a1 HR) as HA.
    set (a2 := map (LE_TO_UINT16 en) a1) in *.
    apply wp_bind; eapply (wp_for (fun k o => mat 8 N o (fun q k' => if q <? 4 * b then AS_E N A s e q k' mod 65536
       else if (q <? 4 * b + 4) && (k' <? k) then AS_E N A s e q k' mod 65536 else znth e (8 * q + k')))).
    + unfold NBAR; lia.
    + eapply mat_ext; [|exact Ho]. intros; cbv beta. destruct (q <? 4 * b); [reflexivity|].
      destruct (Z.ltb_spec j 0); [lia|]. now rewrite andb_false_r.
    + clear o Ho. unfold NBAR. intros k o Hk Ho.
      set (dot := fun r => zsum N (fun j => A (4 * b + r) j * znth s (k * N + j)) mod 65536).
      apply wp_bind; eapply wp_mono with (P := fun sm => sm = (dot 0, dot 1, dot 2, dot 3)).
      { set (dotj := fun j r => zsum j (fun j => A (4 * b + r) j * znth s (k * N + j)) mod 65536).
        apply (wp_for (fun j sm => sm = (dotj j 0, dotj j 1, dotj j 2, dotj j 3))).
        - lia.
        - reflexivity.
        - intros j sm Hj ->.
          apply wp_bind; eapply (rd_mat N HN); [apply s_mat|reflexivity|lia|lia|]; intros Hs.
          apply wp_bind; eapply (rd_mat N HN); [exact HA|reflexivity|lia|lia|]; intros Ha0.
          apply wp_bind, mac_wp; [apply mod16_range|exact Hs|].
          apply wp_bind; eapply (rd_mat N HN); [exact HA|reflexivity|lia|lia|]; intros Ha1.
          apply wp_bind, mac_wp; [apply mod16_range|exact Hs|].
          apply wp_bind; eapply (rd_mat N HN); [exact HA|reflexivity|lia|lia|]; intros Ha2.
          apply wp_bind, mac_wp; [apply mod16_range|exact Hs|].
          apply wp_bind; eapply (rd_mat N HN); [exact HA|reflexivity|lia|lia|]; intros Ha3.
          apply wp_bind, mac_wp; [apply mod16_range|exact Hs|].
          apply wp_ret. unfold dotj; rewrite !mod16_add, !zsum_succ by lia. reflexivity.
        - auto. }
      intros sm ->.
      apply wp_bind; eapply (add_to_mat 8 H8 N _ _ _ (4 * b + 0) k); [exact Ho|reflexivity|lia|lia|apply mod16_range|]. intros o1 Ho1.
      apply wp_bind; eapply (add_to_mat 8 H8 N _ _ _ (4 * b + 2) k); [exact Ho1|reflexivity|lia|lia|apply mod16_range|]. intros o2 Ho2.
      apply wp_bind; eapply (add_to_mat 8 H8 N _ _ _ (4 * b + 1) k); [exact Ho2|reflexivity|lia|lia|apply mod16_range|]. intros o3 Ho3.
      eapply (add_to_mat 8 H8 N _ _ _ (4 * b + 3) k); [exact Ho3|reflexivity|lia|lia|apply mod16_range|]. intros o4 Ho4.
      eapply mat_ext; [|exact Ho4]. intros q k' Hq Hk'.
      assert (Hrow : forall r, 0 <= r < 4 -> (znth e (8 * (4 * b + r) + k) + dot r) mod 65536 = AS_E N A s e (4 * b + r) k mod 65536).
      { intros r Hr; unfold dot, AS_E. apply mod16_add_r. }
      clear - Hrow Hq Hk' Hk Hb Hb4. unfold upd2.
      destruct (Z.ltb_spec q (4 * b)).
      { repeat match goal with |- context [q =? ?x] => destruct (Z.eqb_spec q x); [lia|] end. cbn [andb]; reflexivity. }
      destruct (Z.ltb_spec q (4 * b + 4)).
      2:{ repeat match goal with |- context [q =? ?x] => destruct (Z.eqb_spec q x); [lia|] end. cbn [andb]; reflexivity. }
      cbn [andb]. destruct (Z.eqb_spec k' k) as [->|].
      * rewrite !andb_true_r, Z.ltb_irrefl. destruct (Z.ltb_spec k (k + 1)); [|lia].
        assert (Eq : q = 4 * b + 0 \/ q = 4 * b + 1 \/ q = 4 * b + 2 \/ q = 4 * b + 3) by lia.
        assert (Hself : forall x y, 4 * b + x =? 4 * b + y = (x =? y)).
        { intros x y; destruct (Z.eqb_spec x y), (Z.eqb_spec (4 * b + x) (4 * b + y)); try lia; reflexivity. }
        assert (Hlt : forall x, 0 <= x < 4 -> (4 * b + x <? 4 * b) = false /\ (4 * b + x <? 4 * b + 4) = true).
        { intros x Hx; split; [apply Z.ltb_ge|apply Z.ltb_lt]; lia. }
        destruct (Hlt 0 ltac:(lia)) as (E0 & F0), (Hlt 1 ltac:(lia)) as (E1 & F1),
          (Hlt 2 ltac:(lia)) as (E2 & F2), (Hlt 3 ltac:(lia)) as (E3 & F3).
        destruct Eq as [-> | [-> | [-> | -> ]]]; rewrite !Hself, ?E0, ?E1, ?E2, ?E3, ?F0, ?F1, ?F2, ?F3; cbn [Z.eqb Pos.eqb andb];
          apply Hrow; lia.
      * rewrite !andb_false_r. destruct (Z.ltb_spec k' k), (Z.ltb_spec k' (k + 1)); try lia; reflexivity.
    + intros o' Ho'. apply wp_ret. split; [exact Hst1|].
      destruct HA as (LA & UA & _). split; [exact LA|split; [exact UA|]].
      eapply mat_ext; [|exact Ho']. intros q k Hq Hk; cbv beta. unfold NBAR.
      destruct (Z.ltb_spec q (4 * b)), (Z.ltb_spec q (4 * (b + 1))), (Z.ltb_spec q (4 * b + 4)); try lia; try reflexivity.
      destruct (Z.ltb_spec k 8); [reflexivity|lia].
  - intros ((o, a_row), st1) (Hst1 & _ & _ & Ho).
    apply wp_bind; eapply gst_free_wp; [exact Hst1|]. apply wp_ret.
    assert (Ho' : mat 8 N o (fun q k => AS_E N A s e q k mod 65536)).
    { eapply mat_ext; [|exact Ho]. intros; cbv beta. destruct (Z.ltb_spec q (4 * (N / 4))); [reflexivity|dlia]. }
    apply (mat_fun 8 H8 N o _ Ho'); lia.
Qed.

(* ------------------------------------------------------------------ *)
(** ** S'*A + E', blocked by rows of A, accumulating in e.  The routine uses the
    little-endian words of A without converting them to the host's order. *)
Definition Araw (i j : Z) : Z := UINT16_TO_LE en (A_spec g N seedA i j).
Definition sa_raw (s e : list Z) : list Z :=
  ztab (8 * N) (fun t => SA_E N Araw s e (t / N) (t mod N) mod 65536).
Definition acc (i k q : Z) : Z := (znth e (k * N + q) + zsum i (fun j => znth s (k * N + j) * Araw j q)) mod 65536.
Lemma acc_step t k q : 0 <= t -> (acc t k q + znth s (k * N + t) * Araw t q) mod 65536 = acc (t + 1) k q.
Proof. intros; unfold acc; rewrite mod16_add, zsum_succ by lia. f_equal; lia. Qed.
Lemma acc_range i k q : 0 <= acc i k q < 65536. Proof. apply mod16_range. Qed.
Lemma acc_0 k q : 0 <= k < 8 -> 0 <= q < N -> acc 0 k q = znth e (k * N + q).
Proof.
  intros; unfold acc; rewrite zsum_0, Z.add_0_r, Z.mod_small; [reflexivity|].
  apply inrange_znth; [exact Ue|]. pose proof (idx_lt N HN 8 k q); lia.
Qed.
Lemma s_at i j p : 0 <= j < 8 -> 0 <= i -> 0 <= p -> i + p < N ->
  forall Q : Z -> Prop, (0 <= znth s (j * N + (i + p)) < 65536 -> Q (znth s (j * N + (i + p)))) -> wp (rd s (j * N + i + p)) Q.
Proof. intros Hj Hi Hp Hip Q HQ; eapply (rd_mat N HN 8 _ _ _ j (i + p)); [apply s_mat|lia|lia|lia|]. exact HQ. Qed.

Lemma sa_block_wp i Ab e1 : 0 <= i -> i + 8 <= N -> mat N 8 Ab (fun p q => Araw (i + p) q) -> mat N 8 e1 (acc i) ->
  wp (sa_block N i Ab s e1) (fun e2 => mat N 8 e2 (acc (i + 8))).
Proof.
  intros Hi HiN HA He; unfold sa_block, NBAR.
  apply (wp_for (fun j e1 => mat N 8 e1 (fun k q => if k <? j then acc (i + 8) k q else acc i k q))).
  - lia.
  - eapply mat_ext; [|exact He]. intros; cbv beta; destruct (Z.ltb_spec q 0); [lia|reflexivity].
  - clear e1 He; intros j e1 Hj He.
    apply wp_bind; eapply wp_mono with (P := fun sp => zlen sp = 8 /\ forall p, 0 <= p < 8 -> znth sp p = znth s (j * N + (i + p))).
    { apply (wp_for (fun p sp => zlen sp = 8 /\ forall p', 0 <= p' < p -> znth sp p' = znth s (j * N + (i + p')))).
      - lia.
      - split; [reflexivity|lia].
      - intros p sp Hp (L & E). apply wp_bind, s_at; try lia. intros Hs.
        apply wp_wr; [lia|]. split; [rewrite zlen_zset; exact L|].
        intros p' Hp'; rewrite znth_zset by lia. destruct (Z.eqb_spec p p') as [->|]; [reflexivity|apply E; lia].
      - auto. }
    intros sp (Lsp & Esp).
    apply (wp_for (fun c e1 => mat N 8 e1 (fun k q => if k <? j then acc (i + 8) k q else
        if (k =? j) && (q <? c) then acc (i + 8) k q else acc i k q))).
    + lia.
    + eapply mat_ext; [|exact He]. intros; cbv beta. destruct (q <? j); [reflexivity|].
      destruct (Z.ltb_spec j0 0); [lia|]. now rewrite andb_false_r.
    + clear e1 He. intros c e1 Hc He.
      apply wp_bind; eapply (rd_mat N HN); [exact He|reflexivity|lia|lia|]. cbv beta. intros _.
      rewrite !Z.ltb_irrefl, Z.eqb_refl; cbn [andb].
      apply wp_bind; eapply wp_mono with (P := fun sum => sum = acc (i + 8) j c).
      { apply (wp_for (fun p sum => sum = acc (i + p) j c)).
        - lia.
        - rewrite Z.add_0_r; reflexivity.
        - intros p sum Hp ->. 
          assert (Hsr : 0 <= znth s (j * N + (i + p)) < 65536) by
            (apply inrange_znth; [exact Us|pose proof (idx_lt N HN 8 j (i + p)); lia]).
          apply wp_bind, wp_rd; [lia|rewrite Esp by lia; lia|].
          apply wp_bind; eapply (rd_mat N HN); [exact HA|reflexivity|lia|lia|]. intros Ha; cbv beta in *.
          apply mac_wp; [apply acc_range|exact Ha|]. rewrite Esp by lia. rewrite acc_step by lia. f_equal; lia.
        - intros sum ->; reflexivity. }
      intros sum ->. eapply (wr_mat N HN); [exact He|reflexivity|lia|lia|apply acc_range|].
      intros e2 He2; eapply mat_ext; [|exact He2]. intros k q Hk Hq; unfold upd2.
      destruct (Z.ltb_spec k j).
      { destruct (Z.eqb_spec k j); [lia|reflexivity]. }
      destruct (Z.eqb_spec k j) as [->|]; cbn [andb]; [|reflexivity].
      destruct (Z.eqb_spec q c) as [->|].
      * destruct (Z.ltb_spec c (c + 1)); [reflexivity|lia].
      * destruct (Z.ltb_spec q c), (Z.ltb_spec q (c + 1)); try lia; reflexivity.
    + intros e2 He2; eapply mat_ext; [|exact He2]. intros k q Hk Hq; cbv beta.
      destruct (Z.ltb_spec k j), (Z.ltb_spec k (j + 1)); try lia; try reflexivity.
      * destruct (Z.eqb_spec k j); [|lia]. destruct (Z.ltb_spec q N); [reflexivity|lia].
      * destruct (Z.eqb_spec k j); [lia|reflexivity].
  - intros e2 He2; eapply mat_ext; [|exact He2]. intros k q Hk Hq; cbv beta.
    destruct (Z.ltb_spec k 8); [reflexivity|lia].
Qed.

Lemma mm_load_wp base l i (Q : list Z -> Prop) : (base + 2 * i) mod 32 = 0 -> 0 <= i -> i + 16 <= zlen l ->
  Q (zslice l i 16) -> wp (mm256_load base l i) Q.
Proof. intros Ha Hi Hl HQ; unfold mm256_load; rewrite Ha, Z.eqb_refl. apply wp_sub; auto; lia. Qed.
Lemma mm_store_wp base l i v (Q : list Z -> Prop) : (base + 2 * i) mod 32 = 0 -> 0 <= i -> i + zlen v <= zlen l ->
  Q (zsplice l i v) -> wp (mm256_store base l i v) Q.
Proof. intros Ha Hi Hl HQ; unfold mm256_store; rewrite Ha, Z.eqb_refl. apply wp_put; auto; lia. Qed.
Lemma aligned_idx base k b : base mod 32 = 0 -> (base + 2 * (k * N + 16 * b)) mod 32 = 0.
Proof.
  intros Hb. assert (EN : N = 16 * (N / 16)) by dlia.
  replace (base + 2 * (k * N + 16 * b)) with (base + (k * (N / 16) + b) * 32) by (rewrite EN at 2; lia).
  rewrite Z.mod_add by lia; exact Hb.
Qed.

Lemma sa_block_avx_wp ebase i Ab e1 : ebase mod 32 = 0 ->
  0 <= i -> i + 8 <= N -> mat N 8 Ab (fun p q => Araw (i + p) q) -> mat N 8 e1 (acc i) ->
  wp (sa_block_avx ebase N i Ab s e1) (fun e2 => mat N 8 e2 (acc (i + 8))).
Proof.
  intros Hbase Hi HiN HA He; unfold sa_block_avx, NBAR.
  apply (wp_for (fun j e1 => mat N 8 e1 (fun k q => if k <? j then acc (i + 8) k q else acc i k q))).
  - lia.
  - eapply mat_ext; [|exact He]. intros; cbv beta; destruct (Z.ltb_spec q 0); [lia|reflexivity].
  - clear e1 He; intros j e1 Hj He.
    apply wp_bind; eapply wp_mono with (P := fun sp => zlen sp = 128 /\
      forall p t, 0 <= p < 8 -> 0 <= t < 16 -> znth sp (16 * p + t) = znth s (j * N + (i + p))).
    { apply (wp_for (fun p sp => zlen sp = 128 /\
        forall p' t, 0 <= p' < p -> 0 <= t < 16 -> znth sp (16 * p' + t) = znth s (j * N + (i + p')))).
      - lia.
      - split; [reflexivity|lia].
      - intros p sp Hp (L & E). apply wp_bind, s_at; try lia. intros Hs. unfold mm256_set1_epi16.
        apply wp_put; [lia|rewrite zlen_zrep by lia; lia|].
        split; [rewrite zlen_zsplice; rewrite ?zlen_zrep; lia|].
        intros p' t Hp' Ht; rewrite znth_zsplice by (rewrite ?zlen_zrep; lia). rewrite zlen_zrep by lia.
        destruct (Z.leb_spec (16 * p) (16 * p' + t)); cbn [andb].
        + destruct (Z.ltb_spec (16 * p' + t) (16 * p + 16)); [|lia].
          rewrite znth_zrep by lia. f_equal; lia.
        + apply E; lia.
      - auto. }
    intros sp (Lsp & Esp).
    eapply (wp_for_step (fun c e1 => mat N 8 e1 (fun k q => if k <? j then acc (i + 8) k q else
        if (k =? j) && (q <? 16 * c) then acc (i + 8) k q else acc i k q)) 0 N 16 (N / 16)).
    + lia.
    + dlia.
    + dlia.
    + eapply mat_ext; [|exact He]. intros; cbv beta. destruct (q <? j); [reflexivity|].
      destruct (Z.ltb_spec j0 (16 * 0)); [lia|]. now rewrite andb_false_r.
    + clear e1 He. intros c e1 Hc He. assert (Hc16 : 16 * c + 16 <= N) by dlia.
      replace (0 + c * 16) with (16 * c) by lia.
      pose proof He as (Le1 & Ue1 & Ee1). pose proof HA as (LA & UA & EA).
      pose proof (idx_lt N HN 8 j (16 * c) ltac:(lia) ltac:(lia)).
      pose proof (idx_lt N HN 8 j (16 * c + 15) ltac:(lia) ltac:(lia)).
      apply wp_bind, mm_load_wp; [apply aligned_idx; exact Hbase|lia|lia|].
      apply wp_bind; eapply wp_mono with (P := fun v => v = ztab 16 (fun t => acc (i + 8) j (16 * c + t))).
      { apply (wp_for (fun p v => v = ztab 16 (fun t => acc (i + p) j (16 * c + t)))).
        - lia.
        - apply list_ext; [rewrite zlen_zslice, zlen_ztab by lia; reflexivity|].
          rewrite zlen_zslice by lia. intros t Ht. rewrite znth_zslice, znth_ztab by lia.
          rewrite <- Z.add_assoc, Ee1 by lia. rewrite Z.ltb_irrefl, Z.eqb_refl; cbn [andb].
          destruct (Z.ltb_spec (16 * c + t) (16 * c)); [lia|]. rewrite Z.add_0_r; reflexivity.
        - intros p v Hp ->.
          pose proof (idx_lt N HN 8 p (16 * c) ltac:(lia) ltac:(lia)).
          pose proof (idx_lt N HN 8 p (16 * c + 15) ltac:(lia) ltac:(lia)).
          apply wp_bind, mm_load_wp; [apply aligned_idx; reflexivity|lia|lia|].
          apply wp_bind, wp_sub; try lia. apply wp_ret.
          unfold mm256_add_epi16, mm256_mullo_epi16. apply ztab_ext; intros t Ht.
          rewrite !znth_ztab by lia. rewrite !znth_zslice by lia.
          rewrite <- Z.add_assoc, EA by lia. rewrite Esp by lia. unfold u16.
          rewrite mod16_add, (Z.add_comm (Araw _ _ * _)), (Z.mul_comm (Araw _ _)), acc_step by lia. f_equal; lia.
        - intros v ->; reflexivity. }
      intros v ->. apply mm_store_wp; [apply aligned_idx; exact Hbase|lia|rewrite zlen_ztab by lia; lia|].
      split; [rewrite zlen_zsplice; rewrite ?zlen_ztab; lia|split].
      { apply inrange_zsplice; [exact Ue1|apply inrange_ztab; intros; apply acc_range]. }
      intros k q Hk Hq. rewrite znth_zsplice by (rewrite ?zlen_ztab; lia). rewrite zlen_ztab by lia.
      destruct (Z.leb_spec (j * N + 16 * c) (k * N + q)); cbn [andb].
      * destruct (Z.ltb_spec (k * N + q) (j * N + 16 * c + 16)).
        -- destruct (idx_inj N HN k q j (k * N + q - j * N)) as (-> & Eq); [lia|lia|lia|].
           rewrite znth_ztab by lia. rewrite Z.ltb_irrefl, Z.eqb_refl; cbn [andb].
           destruct (Z.ltb_spec q (16 * (c + 1))); [|lia]. f_equal; lia.
        -- rewrite Ee1 by lia. destruct (k <? j); [reflexivity|].
           destruct (Z.eqb_spec k j) as [->|]; cbn [andb]; [|reflexivity].
           destruct (Z.ltb_spec q (16 * c)), (Z.ltb_spec q (16 * (c + 1))); try lia; reflexivity.
      * rewrite Ee1 by lia. destruct (k <? j); [reflexivity|].
        destruct (Z.eqb_spec k j) as [->|]; cbn [andb]; [|reflexivity].
        destruct (Z.ltb_spec q (16 * c)), (Z.ltb_spec q (16 * (c + 1))); try lia; reflexivity.
    + intros e2 He2; eapply mat_ext; [|exact He2]. intros k q Hk Hq; cbv beta.
      destruct (Z.ltb_spec k j), (Z.ltb_spec k (j + 1)); try lia; try reflexivity.
      * destruct (Z.eqb_spec k j); [|lia]. destruct (Z.ltb_spec q (16 * (N / 16))); [reflexivity|dlia].
      * destruct (Z.eqb_spec k j); [lia|reflexivity].
  - intros e2 He2; eapply mat_ext; [|exact He2]. intros k q Hk Hq; cbv beta.
    destruct (Z.ltb_spec k 8); [reflexivity|lia].
Qed.

Lemma opt_sa_wp im avx ebase : (avx = true -> ebase mod 32 = 0) ->
  wp (opt_sa_plus_e en g im avx N ebase out s e seedA) (fun r => r = (sa_raw s e, sa_raw s e)).
Proof.
  intros Hal; unfold opt_sa_plus_e.
  apply wp_bind; eapply wp_mono; [apply sa_init_wp; auto|]. intros st Hst.
  apply wp_bind.
  eapply (wp_for_step (fun b '(e1, Ab, st) => gst_ok en N seedA g 8 st /\ zlen Ab = 8 * N /\ u16s_ok Ab /\
    mat N 8 e1 (acc (8 * b))) 0 N 8 (N / 8)).
  - lia.
  - dlia.
  - dlia.
  - split; [exact Hst|]. destruct (mat_zero N HN 8 ltac:(lia)) as (L0 & U0 & _).
    rewrite (Z.mul_comm N 8).
    split; [exact L0|]. split; [exact U0|]. eapply mat_ext; [|apply e_matN].
    intros; cbv beta. symmetry; apply acc_0; auto.
  - clear st Hst. intros b ((e1, Ab), st) Hb (Hst & La & Ua & He).
    assert (Hb8 : 8 * b + 8 <= N) by dlia. replace (0 + b * 8) with (8 * b) by lia.
    apply wp_bind; eapply wp_mono; [apply (sa_rows_wp en N seedA HN HN16 Hseed Hseedb g); auto; lia|].
    intros (A1, st1) (HR & Hst1); cbn [fst snd] in *; pose proof HR as (L1 & U1 & E1).
    assert (HA : mat N 8 A1 (fun p q => Araw (8 * b + p) q)).
    { split; [exact L1|split; [exact U1|]]. intros q j Hq Hj. unfold Araw; rewrite <- (E1 q j Hq Hj). symmetry; apply UINT16_TO_LE_inv. apply inrange_znth; [exact U1|]. rewrite L1; apply (idx_lt N HN); auto. }
    apply wp_bind; eapply wp_mono with (P := fun e2 => mat N 8 e2 (acc (8 * b + 8))).
    { destruct avx; [apply sa_block_avx_wp|apply sa_block_wp]; auto; lia. }
    intros e2 He2. apply wp_ret. split; [exact Hst1|split; [exact L1|split; [exact U1|]]].
    replace (8 * (b + 1)) with (8 * b + 8) by lia. exact He2.
  - intros ((e1, Ab), st1) (Hst1 & _ & _ & He).
    assert (E1 : e1 = sa_raw s e).
    { assert (He' : mat N 8 e1 (fun k q => SA_E N Araw s e k q mod 65536)).
      { eapply mat_ext; [|exact He]. intros k q Hk Hq; unfold acc, SA_E.
        replace (8 * (N / 8)) with N by dlia. reflexivity. }
      apply (mat_fun N HN 8 e1 _ He'); lia. }
    assert (L1 : zlen e1 = N * 8) by (destruct He as (-> & _); lia).
    apply wp_bind, wp_memcpy; try (unfold NBAR; lia).
    apply wp_bind; eapply gst_free_wp; [exact Hst1|]. apply wp_ret.
    unfold NBAR; rewrite zslice_all_n, zsplice_all by lia. rewrite E1; reflexivity.
Qed.
End Mul.
