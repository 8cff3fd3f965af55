(** What SHAKE leaves behind: the remains of a call contain its output and determine the end
    of its input; and the remains of crypto_kem_enc and crypto_kem_dec. *)
From Verif Require Import CSem Params Util UtilSpec UtilProofs Fips202 KeccakSpec KeccakProofs KeccakInj ShakeProofs AesSpec
  MatrixSpec Macrify MatrixProofs MatrixProofs2 EncodeProofs PropMatrix FrodoSpec Kem KemProofs KemWp Residue.

(* ================================================================== *)
(** * The models with and without remains agree *)

Lemma bind_cong {A B} (m : res A) (f g : A -> res B) : (forall x, f x = g x) -> bind m f = bind m g.
Proof. intros H; destruct m as [a t|e]; cbn; [now rewrite H|reflexivity]. Qed.
Lemma bind_bind {A B D} (m : res A) (f : A -> res B) (g : B -> res D) :
  bind (bind m f) g = bind m (fun x => bind (f x) g).
Proof.
  destruct m as [a t|e]; cbn; [|reflexivity]. destruct (f a) as [b t'|e]; cbn; [|reflexivity].
  destruct (g b) as [d t''|e]; cbn; [now rewrite app_assoc|reflexivity].
Qed.
Lemma bind_ret_l {A B} (a : A) (f : A -> res B) : bind (ret a) f = f a.
Proof. unfold ret; cbn; destruct (f a); reflexivity. Qed.
Lemma bind_ret_r {A} (m : res A) : bind m ret = m.
Proof. destruct m; cbn; [now rewrite app_nil_r|reflexivity]. Qed.

(** A loop with more in its state, seen through a projection. *)
Lemma for_n_proj {S T} (p : T -> S) n : forall i st (b : Z -> S -> res S) (b' : Z -> T -> res T) t,
  (forall i t, bind (b' i t) (fun t' => ret (p t')) = b i (p t)) ->
  bind (for_n n i st b' t) (fun t' => ret (p t')) = for_n n i st b (p t).
Proof.
  induction n as [|n IH]; intros i st b b' t H; cbn [for_n]; [now rewrite bind_ret_l|].
  rewrite bind_bind, <- H, bind_bind. apply bind_cong; intros t1. rewrite bind_ret_l. apply IH, H.
Qed.
Lemma for_proj {S T} (p : T -> S) lo hi (b : Z -> S -> res S) (b' : Z -> T -> res T) t :
  (forall i t, bind (b' i t) (fun t' => ret (p t')) = b i (p t)) ->
  for_ lo hi b (p t) = bind (for_ lo hi b' t) (fun t' => ret (p t')).
Proof. intros H; unfold for_. rewrite bind_bind. apply bind_cong; intros _. symmetry; now apply for_n_proj. Qed.
Lemma for_step_proj {S T} (p : T -> S) lo hi st (b : Z -> S -> res S) (b' : Z -> T -> res T) t :
  (forall i t, bind (b' i t) (fun t' => ret (p t')) = b i (p t)) ->
  for_step lo hi st b (p t) = bind (for_step lo hi st b' t) (fun t' => ret (p t')).
Proof. intros H; unfold for_step. rewrite bind_bind. apply bind_cong; intros _. symmetry; now apply for_n_proj. Qed.

(** ** Partial correctness: what holds if the run returns. *)
Definition pc {A} (m : res A) (Q : A -> Prop) : Prop := forall a t, m = Ok a t -> Q a.
Lemma pc_any {A} (m : res A) : pc m (fun _ => True). Proof. intros a t _; exact I. Qed.
Lemma pc_bind {A B} (m : res A) (f : A -> res B) (P : A -> Prop) (Q : B -> Prop) :
  pc m P -> (forall a, P a -> pc (f a) Q) -> pc (bind m f) Q.
Proof.
  intros H1 H2 b t E. destruct m as [a t1|]; [|discriminate]. cbn in E. specialize (H2 a (H1 a t1 eq_refl)).
  destruct (f a) as [b' t2|] eqn:Ef; [|discriminate]. injection E; intros _ <-. exact (H2 b' t2 eq_refl).
Qed.
Lemma pc_ret {A} (a : A) (Q : A -> Prop) : Q a -> pc (ret a) Q.
Proof. intros H b t E; injection E; intros _ <-; exact H. Qed.
Lemma pc_wp {A} (m : res A) (Q : A -> Prop) : wp m Q -> pc m Q.
Proof. intros (a & t & -> & H) b t' E; injection E; intros _ <-; exact H. Qed.
Lemma pc_for_n {S} (I : Z -> S -> Prop) step (b : Z -> S -> res S) hi : forall n i s,
  i + Z.of_nat n * step = hi -> 0 < step -> I i s ->
  (forall j s, i <= j -> j + step <= hi -> I j s -> pc (b j s) (I (j + step))) ->
  pc (for_n n i step b s) (I hi).
Proof.
  induction n as [|n IH]; intros i s E Hs H0 Hb; cbn [for_n].
  - apply pc_ret. replace hi with i by lia. exact H0.
  - eapply pc_bind; [apply Hb; [lia|nia|exact H0]|]. intros s1 H1. apply IH; [lia|lia|exact H1|].
    intros j s2 Hj; apply Hb; lia.
Qed.
Lemma pc_for {S} (I : Z -> S -> Prop) lo hi (b : Z -> S -> res S) s : lo <= hi -> I lo s ->
  (forall j s, lo <= j < hi -> I j s -> pc (b j s) (I (j + 1))) -> pc (for_ lo hi b s) (I hi).
Proof.
  intros H H0 Hb; unfold for_. eapply pc_bind; [apply pc_any|]. intros _ _.
  apply pc_for_n; [lia|lia|exact H0|]. intros j s1 H1 H2; apply Hb; lia.
Qed.
Lemma pc_for_step {S} (I : Z -> S -> Prop) hi step n (b : Z -> S -> res S) s : 0 < step -> 0 <= n -> hi = n * step -> I 0 s ->
  (forall j s, 0 <= j -> j + step <= hi -> I j s -> pc (b j s) (I (j + step))) -> pc (for_step 0 hi step b s) (I hi).
Proof.
  intros Hs Hn E H0 Hb; unfold for_step. eapply pc_bind; [apply pc_any|]. intros _ _.
  assert (En : (hi - 0 + step - 1) / step = n).
  { replace (hi - 0 + step - 1) with (step - 1 + n * step) by lia. rewrite Z.div_add by lia.
    rewrite Z.div_small by lia. lia. }
  rewrite En. apply pc_for_n; [rewrite Z2Nat.id by lia; lia|lia|exact H0|]. intros j s1 H1 H2; apply Hb; lia.
Qed.
Lemma wp_pc {A B} (m : res A) (f : A -> B) (Q : B -> Prop) (R : A -> Prop) :
  wp (bind m (fun a => ret (f a))) Q -> pc m R -> wp m (fun a => Q (f a) /\ R a).
Proof.
  intros (b & t & E & H) HR. destruct m as [a t1|]; [|discriminate]. cbn in E. injection E; intros _ <-.
  exists a, t1. split; [reflexivity|]. split; [exact H|exact (HR a t1 eq_refl)].
Qed.
Lemma pc_mono {A} (m : res A) (Q R : A -> Prop) : pc m Q -> (forall a, Q a -> R a) -> pc m R.
Proof. intros H HR a t E; apply HR; exact (H a t E). Qed.
Lemma pc_rd l i : pc (rd l i) (fun x => x = znth l i).
Proof.
  intros x t E. unfold rd in E. destruct (_ && _); [|discriminate]. destruct (znth l i <? 0); [discriminate|].
  injection E; intros _ <-; reflexivity.
Qed.
Lemma pc_wr l i v : pc (wr l i v) (fun l' => l' = zset l i v /\ 0 <= i < zlen l).
Proof.
  intros x t E. unfold wr in E. destruct (Z.leb_spec 0 i); [|discriminate]. destruct (Z.ltb_spec i (zlen l)); [|discriminate].
  injection E; intros _ <-. split; [reflexivity|lia].
Qed.
Lemma pc_branch {A} c (m1 m2 : res A) Q : (c = true -> pc m1 Q) -> (c = false -> pc m2 Q) -> pc (branch c m1 m2) Q.
Proof. intros H1 H2. unfold branch. eapply pc_bind; [apply pc_any|]. intros _ _. destruct c; auto. Qed.
Lemma pc_loop {S} (I Q : S -> Prop) (b : S -> res (S * bool)) : forall n s, I s ->
  (forall s, I s -> pc (b s) (fun '(s', go) => if go then I s' else Q s')) -> pc (loop n b s) Q.
Proof.
  induction n as [|n IH]; intros s H0 Hb; [intros a t E; discriminate|]. cbn [loop].
  eapply pc_bind; [apply Hb, H0|]. intros (s', go) H. eapply pc_bind; [apply pc_any|]. intros _ _.
  destruct go; [apply IH; auto|apply pc_ret; exact H].
Qed.

Lemma pc_put l o x : pc (put l o x) (fun l' => l' = zsplice l o x /\ 0 <= o /\ o + zlen x <= zlen l).
Proof.
  intros y t E. unfold put in E. destruct (Z.leb_spec 0 o); [|discriminate].
  destruct (Z.leb_spec (o + zlen x) (zlen l)); [|discriminate].
  injection E; intros _ <-. auto.
Qed.

Lemma absorb_left_faithful s r m n p :
  keccak_absorb s r m n p = bind (keccak_absorb_left s r m n p) (fun '(s', _) => ret s').
Proof.
  unfold keccak_absorb, keccak_absorb_left. rewrite bind_bind. apply bind_cong; intros ((s1 & l) & o). cbv zeta.
  do 5 (rewrite bind_bind; apply bind_cong; intros ?). rewrite bind_bind.
  rewrite <- (bind_ret_r (for_ _ _ _ _)) at 1. apply bind_cong; intros s2. rewrite bind_ret_l. reflexivity.
Qed.
Lemma shake_left_faithful r out n inp m :
  shake r out n inp m = bind (shake_left r out n inp m) (fun f => ret (rm_out f)).
Proof.
  unfold shake, shake_left. rewrite bind_bind. apply bind_cong; intros s. cbv zeta.
  rewrite absorb_left_faithful, !bind_bind. apply bind_cong; intros (s1 & blk). rewrite bind_ret_l.
  rewrite bind_bind. apply bind_cong; intros (o, s2).
  unfold branch. rewrite bind_bind. apply bind_cong; intros _. destruct (negb _).
  - rewrite bind_bind. apply bind_cong; intros (t, s3). rewrite bind_bind.
    rewrite <- (bind_ret_r (for_ _ _ _ _)) at 1. apply bind_cong; intros o'. rewrite bind_ret_l. reflexivity.
  - rewrite bind_ret_l. reflexivity.
Qed.
Lemma shake_to_left_faithful P mem o n inp m :
  shake_to P mem o n inp m = bind (shake_to_left P mem o n inp m) (fun '(mem', _) => ret mem').
Proof.
  unfold shake_to, shake_to_left. rewrite bind_bind. apply bind_cong; intros b.
  rewrite shake_left_faithful, !bind_bind. apply bind_cong; intros f. rewrite bind_ret_l, bind_bind.
  rewrite <- (bind_ret_r (put _ _ _)) at 1. apply bind_cong; intros m'. rewrite bind_ret_l. reflexivity.
Qed.

(* ================================================================== *)
(** * The remains of one call *)

(** The end of the input stays in the array of keccak_absorb. *)
Definition block_of (r : Z) (M blk : list Z) : Prop :=
  zslice blk 0 (zlen M mod r) = zslice M (zlen M - zlen M mod r) (zlen M mod r).
(** Remains of the call of SHAKE with rate [r] on [M] for [n] bytes. *)
Definition left_by (r : Z) (M : list Z) (n : Z) (f : remains) : Prop :=
  rm_out f = SHAKE_r r M n /\ zlen (rm_t f) = r /\
  zslice (rm_t f) 0 (n mod r) = zslice (SHAKE_r r M n) (n - n mod r) (n mod r) /\
  zlen (rm_s f) = 25 /\ u64s_ok (rm_s f) /\
  keccak_f (lanes_bits (rm_s f)) = iter (Z.to_nat ((n + r - 1) / r)) keccak_f (shake_state r M) /\
  block_of r M (rm_block f).

Lemma absorb_left_pc s r M : 0 < r ->
  pc (keccak_absorb_left s r M (zlen M) 31) (fun '(_, blk) => block_of r M blk).
Proof.
  intros Hr. unfold keccak_absorb_left. pose proof (zlen_nonneg M) as HM.
  pose proof (Z.mod_pos_bound (zlen M) r Hr) as Hm. pose proof (Z.mod_le (zlen M) r HM Hr) as Hle.
  eapply pc_bind with (P := fun '(_, l, o) => l = zlen M mod r /\ o = zlen M - zlen M mod r).
  { apply (pc_loop (fun '(_, l, o) => o + l = zlen M /\ 0 <= l /\ o mod r = 0)).
    - split; [lia|]. split; [lia|]. apply Z.mod_0_l; lia.
    - intros ((s1 & l) & o) (H1 & H2 & H3). apply pc_branch; intros Hc.
      + apply Z.leb_le in Hc. eapply pc_bind; [apply pc_any|]. intros ? _.
        eapply pc_bind; [apply pc_any|]. intros ? _. apply pc_ret. split; [lia|]. split; [lia|].
        rewrite <- Z.add_mod_idemp_l, H3, Z.add_0_l by lia. apply Z.mod_same; lia.
      + apply Z.leb_gt in Hc. apply pc_ret. rewrite <- H1.
        assert (E : (o + l) mod r = l) by (rewrite <- Z.add_mod_idemp_l, H3, Z.add_0_l by lia; apply Z.mod_small; lia).
        lia. }
  intros ((s1 & l) & o) (-> & ->). set (n := zlen M mod r) in *. cbv zeta.
  eapply pc_bind; [apply pc_any|]. intros t0 _.
  eapply pc_bind.
  { apply (pc_for (fun i t => forall j, 0 <= j < i -> j < zlen t /\ znth t j = znth M (zlen M - n + j)) 0 n);
      [lia|intros; lia|].
    intros j t1 Hj H. eapply pc_bind; [apply pc_rd|]. intros x ->. eapply pc_mono; [apply pc_wr|].
    intros t2 (-> & Hl) k Hk. rewrite zlen_zset, znth_zset by lia. destruct (Z.eqb_spec j k) as [->|Hne]; [split; [lia|reflexivity]|apply H; lia]. }
  intros t1 H1. eapply pc_bind; [apply pc_wr|]. intros t2 (-> & Hn).
  eapply pc_bind; [apply pc_any|]. intros x _. eapply pc_bind; [apply pc_wr|]. intros t3 (-> & Hr1).
  rewrite zlen_zset in Hr1. eapply pc_bind; [apply pc_any|]. intros s2 _. apply pc_ret.
  unfold block_of. fold n. apply list_ext; [rewrite !zlen_zslice by (rewrite ?zlen_zset; lia); lia|].
  rewrite zlen_zslice by (rewrite ?zlen_zset; lia). intros i Hi. rewrite !znth_zslice by (rewrite ?zlen_zset; lia).
  rewrite Z.add_0_l, znth_zset by (rewrite zlen_zset; lia). destruct (Z.eqb_spec (r - 1) i); [lia|].
  rewrite znth_zset by lia. destruct (Z.eqb_spec n i); [lia|]. apply H1; lia.
Qed.
Lemma absorb_left_wp r w M :
  r = 8 * w -> 1 <= w <= 25 -> bytes_ok M ->
  wp (keccak_absorb_left (zrep 25 0) r M (zlen M) 31) (fun '(s', blk) => (zlen s' = 25 /\ u64s_ok s' /\
     keccak_f (lanes_bits s') = absorbed (zlen M / r + 1) r (padded r M)) /\ block_of r M blk).
Proof.
  intros Hr Hw HM. pose proof (keccak_absorb_wp r w M Hr Hw HM) as H. rewrite absorb_left_faithful in H.
  eapply wp_mono; [eapply wp_pc with (f := fst); [|apply absorb_left_pc; lia]|].
  - replace (bind _ _) with (bind (keccak_absorb_left (zrep 25 0) r M (zlen M) 31) (fun '(s', _) => ret s')); [exact H|].
    apply bind_cong; intros (? & ?); reflexivity.
  - intros (s' & blk) (H1 & H2). split; [exact H1|exact H2].
Qed.

Lemma shake_left_wp r out outlen inp :
  r = 168 \/ r = 136 -> zlen out = outlen -> bytes_ok inp ->
  wp (shake_left r out outlen inp (zlen inp)) (left_by r inp outlen).
Proof.
  intros Hr Ho Hi; unfold shake_left.
  pose proof (zlen_nonneg out) as Hol.
  assert (Hr8 : exists w, r = 8 * w /\ 1 <= w <= 25)
    by (destruct Hr; subst r; [exists 21|exists 17]; lia).
  destruct Hr8 as (w & Hrw & Hw).
  apply wp_bind.
  eapply wp_mono with (P := fun s => s = zrep 25 0).
  { destruct (r =? 168); [now apply wp_ret|].
    eapply wp_for with (I := fun i s => zlen s = 25 /\ forall j, 0 <= j < i -> znth s j = 0).
    - lia.
    - split; [reflexivity|intros; lia].
    - intros i s Hi' (Hs & Hj); apply wp_wr; [lia|]; split; [now rewrite zlen_zset|].
      intros j Hjj; rewrite znth_zset by lia; destruct (Z.eqb_spec i j); [auto|apply Hj; lia].
    - intros s (Hs & Hj); apply list_ext; [rewrite zlen_zrep; lia|].
      intros i Hi'; rewrite znth_zrep0; apply Hj; lia. }
  intros s0 ->.
  apply wp_bind. eapply wp_mono; [apply (absorb_left_wp r w inp); auto|].
  intros (s & blk) ((Hs & Hok & Hf) & Hblk).
  fold (shake_state r inp) in Hf. set (S := shake_state r inp) in *.
  set (nb := outlen / r).
  assert (Hnb : outlen = nb * r + outlen mod r) by (unfold nb; rewrite (Z.div_mod outlen r) at 1; lia).
  pose proof (Z.mod_pos_bound outlen r ltac:(lia)) as Hrem.
  assert (Hnb0 : 0 <= nb) by (unfold nb; apply Z.div_pos; lia).
  apply wp_bind. eapply wp_mono; [apply (squeezeblocks_wp out nb s r w S); auto; lia|].
  intros (out1, s1) (Ho1 & Hj1 & Hs1 & Hok1 & Hf1). unfold left_by.
  rewrite SHAKE_r_bytes by (auto; lia). fold S.
  apply wp_branch; intros Hc.
  - assert (Hm : 0 < outlen mod r).
    { apply negb_true_iff, Z.eqb_neq in Hc. lia. }
    apply wp_bind. eapply wp_mono; [apply (squeezeblocks_wp (uninit r) 1 s1 r w); eauto; try lia|].
    { unfold uninit; rewrite zlen_zrep; lia. }
    intros (t, s2) (Ht & Htj & Hs2 & Hok2 & Hf2).
    unfold uninit in Ht; rewrite zlen_zrep in Ht by lia.
    assert (Hx : forall i, 0 <= i < r -> znth t i = xof_byte r S (nb * r + i)).
    { intros i Hii; rewrite Htj by lia. destruct (Z.ltb_spec i (1 * r)); [|lia].
      unfold xof_byte. rewrite Z.div_small, Z.mod_small by lia.
      replace ((nb * r + i) / r) with nb by (apply Z.div_unique with (r := i); lia).
      replace ((nb * r + i) mod r) with i by (apply Z.mod_unique with (q := nb); lia).
      reflexivity. }
    apply wp_bind.
    eapply wp_for with (I := fun i o => zlen o = outlen /\
      forall j, 0 <= j < nb * r + i -> znth o j = xof_byte r S j).
    + lia.
    + split; [lia|]. intros j Hj; rewrite Hj1 by lia. destruct (Z.ltb_spec j (nb * r)); [auto|lia].
    + intros i o Hii (Hoo & Hj).
      assert (0 <= znth t i) by (rewrite Hx by lia; unfold xof_byte; apply Kbyte_range).
      apply wp_bind, wp_rd; [lia|lia|]. apply wp_wr; [lia|].
      split; [now rewrite zlen_zset|]. intros j Hjj; rewrite znth_zset by lia.
      destruct (Z.eqb_spec (nb * r + i) j); [subst j; apply Hx; lia|apply Hj; lia].
    + intros o (Hoo & Hj). apply wp_ret. cbn [rm_out rm_t rm_s rm_block].
      split.
      { apply list_ext; [rewrite zlen_ztab; lia|].
        intros j Hjj; rewrite znth_ztab by lia. apply Hj; lia. }
      split; [exact Ht|]. split.
      { apply list_ext; [rewrite !zlen_zslice by (rewrite ?zlen_ztab; lia); lia|].
        rewrite zlen_zslice by lia. intros j Hjj.
        rewrite !znth_zslice by lia. rewrite Z.add_0_l, znth_ztab by lia. rewrite Hx by lia. f_equal; lia. }
      split; [exact Hs2|]. split; [exact Hok2|]. split; [|exact Hblk].
      rewrite Hf2. replace ((outlen + r - 1) / r) with (nb + 1).
      2:{ apply Z.div_unique with (r := outlen mod r - 1); lia. }
      replace (Z.to_nat (nb + 1)) with (Datatypes.S (Z.to_nat nb)) by lia.
      rewrite iter_succ. change (Z.to_nat 1) with 1%nat. cbn [iter]. reflexivity.
  - apply negb_false_iff, Z.eqb_eq in Hc. apply wp_ret. cbn [rm_out rm_t rm_s rm_block].
    assert (Hm : outlen mod r = 0) by lia.
    split.
    { apply list_ext; [rewrite zlen_ztab; lia|].
      intros j Hjj; rewrite znth_ztab, Hj1 by lia.
      destruct (Z.ltb_spec j (nb * r)); [auto|lia]. }
    split; [unfold uninit; rewrite zlen_zrep; lia|]. rewrite Hm. split; [reflexivity|].
    split; [exact Hs1|]. split; [exact Hok1|]. split; [|exact Hblk]. rewrite Hf1. f_equal. f_equal.
    apply Z.div_unique with (r := r - 1); lia.
Qed.

(** ** The state determines the last block *)
Lemma xorl_inj a b c : zlen b = zlen a -> zlen c = zlen a -> xorl a b = xorl a c -> b = c.
Proof.
  intros Lb Lc H. apply blist_ext; [lia|]. intros k Hk.
  assert (E : bnth (xorl a b) k = bnth (xorl a c) k) by now rewrite H.
  rewrite !bnth_xorl in E by lia. destruct (bnth a k), (bnth b k), (bnth c k); cbn in E; congruence.
Qed.
Lemma bytes_to_bits_inj a b : zlen a = zlen b -> bytes_ok a -> bytes_ok b ->
  bytes_to_bits a = bytes_to_bits b -> a = b.
Proof.
  intros L Ha Hb H. apply list_ext; [exact L|]. intros i Hi.
  pose proof (inrange_znth_all 256 a i ltac:(lia) Ha). pose proof (inrange_znth_all 256 b i ltac:(lia) Hb).
  apply Z.bits_inj'. intros k Hk. destruct (Z.ltb_spec k 8) as [Hlt|Hge].
  - assert (E : bnth (bytes_to_bits a) (8 * i + k) = bnth (bytes_to_bits b) (8 * i + k)) by now rewrite H.
    rewrite !bnth_bytes_to_bits in E by lia.
    replace ((8 * i + k) / 8) with i in E by dlia. now replace ((8 * i + k) mod 8) with k in E by dlia.
  - rewrite !(testbit_high 8) by lia. reflexivity.
Qed.

Lemma padb_ok k : bytes_ok (padb k).
Proof.
  unfold padb; destruct (k =? 1); [constructor; [lia|constructor]|].
  constructor; [lia|]. apply inrange_app; [apply inrange_zrep0; lia|constructor; [lia|constructor]].
Qed.
Lemma shake_state_inj r p a b : 0 < r <= 200 -> zlen p mod r = 0 -> zlen a = zlen b -> zlen a < r ->
  bytes_ok a -> bytes_ok b ->
  shake_state r (p ++ a) = shake_state r (p ++ b) -> a = b.
Proof.
  intros Hr Hp Lab La Ba Bb H.
  pose proof (zlen_nonneg p) as Lp. pose proof (zlen_nonneg a) as La0.
  assert (Ep : zlen p = (zlen p / r) * r) by (rewrite (Z.div_mod (zlen p) r) at 1; lia).
  set (n := zlen p / r) in *. assert (Hn : 0 <= n) by (apply Z.div_pos; lia).
  assert (Q : forall x, zlen x = zlen a -> bytes_ok x ->
     zlen (p ++ x) / r = n /\ padded r (p ++ x) = p ++ x ++ padb (r - zlen a)).
  { intros x Lx _. rewrite zlen_app. split.
    - symmetry; apply Z.div_unique with (r := zlen x); lia.
    - unfold padded. rewrite zlen_app, <- app_assoc.
      replace ((zlen p + zlen x) mod r) with (zlen a) by (apply Z.mod_unique with (q := n); lia). reflexivity. }
  destruct (Q a eq_refl Ba) as (Na & Pa). destruct (Q b (eq_sym Lab) Bb) as (Nb & Pb).
  assert (Lpad : zlen (padb (r - zlen a)) = r - zlen a) by (apply zlen_padb; lia).
  unfold shake_state in H. rewrite Na, Nb, Pa, Pb in H.
  assert (Lx : forall x, zlen x = zlen a -> zlen (p ++ x ++ padb (r - zlen a)) = (n + 1) * r)
    by (intros x Ex; rewrite !zlen_app; lia).
  rewrite !absorbed_succ in H by (rewrite ?Lx by lia; lia).
  assert (Z1600 : forall x, zlen x = zlen a -> zlen (absorbed n r (p ++ x ++ padb (r - zlen a))) = 1600).
  { intros x Ex. apply zlen_absorbed; [lia|lia|]. rewrite Lx by exact Ex. lia. }
  assert (AB : forall x, absorbed n r (p ++ x) = absorbed n r p).
  { intros x. unfold absorbed. clear -Ep Hn Hr Lp.
    assert (forall m, 0 <= m <= n -> absorb (Z.to_nat m) (8 * r) (bytes_to_bits (p ++ x)) (zrep 1600 false)
      = absorb (Z.to_nat m) (8 * r) (bytes_to_bits p) (zrep 1600 false)) as K; [|apply K; lia].
    intros m [Hm0 Hm]; revert Hm; pattern m; apply natlike_ind; [reflexivity| |exact Hm0].
    clear m Hm0; intros m Hm IH Hmn.
    pose proof (zlen_nonneg x).
    change (absorbed (Z.succ m) r (p ++ x) = absorbed (Z.succ m) r p). unfold Z.succ in *.
    rewrite !absorbed_succ by (rewrite ?zlen_app; nia). unfold absorbed at 1. rewrite IH by lia.
    fold (absorbed m r p). rewrite zslice_app_l by nia. reflexivity. }
  rewrite !AB in H. rewrite !app_assoc in H.
  assert (Sl : forall x, zlen x = zlen a -> zslice ((p ++ x) ++ padb (r - zlen a)) (n * r) r = x ++ padb (r - zlen a)).
  { intros x Ex. rewrite <- app_assoc. rewrite <- Ep. rewrite zslice_app2; [reflexivity|reflexivity|].
    rewrite zlen_app; lia. }
  rewrite !Sl in H by (auto; lia).
  assert (L1 : zlen (absorbed n r p) = 1600) by (apply zlen_absorbed; lia).
  assert (LP : forall x, zlen x = zlen a -> zlen (padstate r (bytes_to_bits (x ++ padb (r - zlen a)))) = 1600).
  { intros x Ex. unfold padstate. rewrite zlen_app, zlen_bytes_to_bits, zlen_app, zlen_zrep by lia. lia. }
  apply keccak_f_inj in H; [|rewrite zlen_xorl, L1, LP by (auto; lia); lia..].
  apply xorl_inj in H; [|rewrite LP, L1 by (auto; lia); reflexivity..].
  unfold padstate in H. apply app_eq_len in H; [|rewrite !zlen_bytes_to_bits, !zlen_app; lia]. destruct H as (H & _).
  apply bytes_to_bits_inj in H; [|rewrite !zlen_app; lia|apply inrange_app; [auto|apply padb_ok]..].
  apply app_eq_len in H; [|exact Lab]. tauto.
Qed.

(** Inputs that agree on their full blocks and leave the same state are equal. *)
Lemma remains_inj r p a b n f1 f2 : r = 168 \/ r = 136 -> zlen p mod r = 0 -> zlen a = zlen b -> zlen a < r ->
  bytes_ok a -> bytes_ok b -> left_by r (p ++ a) n f1 -> left_by r (p ++ b) n f2 ->
  rm_s f1 = rm_s f2 -> a = b.
Proof.
  intros Hr Hp Lab La Ba Bb (_ & _ & _ & _ & _ & E1 & _) (_ & _ & _ & _ & _ & E2 & _) E.
  rewrite E, E2 in E1. symmetry in E1.
  assert (Z1600 : forall x, zlen (shake_state r x) = 1600).
  { intros x. pose proof (zlen_nonneg x). assert (0 <= zlen x / r) by (apply Z.div_pos; lia).
    apply zlen_absorbed; [lia|lia|]. rewrite zlen_padded; lia. }
  apply iter_keccak_f_inj in E1; auto. apply (shake_state_inj r p); auto; lia.
Qed.

(** The same input leaves the same state. *)
Lemma remains_fun r M n f1 f2 : left_by r M n f1 -> left_by r M n f2 -> rm_s f1 = rm_s f2.
Proof.
  intros (_ & _ & _ & L1 & U1 & E1 & _) (_ & _ & _ & L2 & U2 & E2 & _).
  apply lanes_bits_inj; [exact L1|exact L2|exact U1|exact U2|].
  apply keccak_f_inj; [apply zlen_lanes_bits|apply zlen_lanes_bits|]. rewrite E1, E2. reflexivity.
Qed.

(* ================================================================== *)
(** * crypto_kem_enc and crypto_kem_dec *)

(** The key that decapsulation hashes with the ciphertext: that of the recovered message, or
    the secret of the key pair when the ciphertext is rejected. *)
Definition dec_key (P : params) (g : genA) (sk ct : list Z) : list Z :=
  let '(B2, C2, k) := Encrypt P g (sk_seedA P sk) (sk_b P sk) (sk_pkh P sk) (Decrypt P sk ct) in
  if list_eq_dec Z.eq_dec (ct_B P ct ++ ct_C P ct) (B2 ++ C2) then k else sk_s P sk.

(* ================================================================== *)
(** * The array sp of frodo_mul_add_sa_plus_e *)

Lemma sa_block_left_faithful N i A s e :
  sa_block N i A s e = bind (sa_block_left N i A s e) (fun '(e', _) => ret e').
Proof.
  unfold sa_block, sa_block_left.
  match goal with |- context [for_ 0 NBAR ?b' (e, uninit 8)] =>
    rewrite (for_proj (fun '(e', _) => e') 0 NBAR _ b' (e, uninit 8)) end.
  - apply bind_cong; intros (? & ?); reflexivity.
  - intros j (e1 & sp0). rewrite bind_bind. apply bind_cong; intros sp. rewrite bind_bind.
    etransitivity; [|apply bind_ret_r]. apply bind_cong; intros e2. rewrite bind_ret_l. reflexivity.
Qed.
Lemma sa_block_avx_left_faithful eb N i A s e :
  sa_block_avx eb N i A s e = bind (sa_block_avx_left eb N i A s e) (fun '(e', _) => ret e').
Proof.
  unfold sa_block_avx, sa_block_avx_left.
  match goal with |- context [for_ 0 NBAR ?b' (e, uninit 128)] =>
    rewrite (for_proj (fun '(e', _) => e') 0 NBAR _ b' (e, uninit 128)) end.
  - apply bind_cong; intros (? & ?); reflexivity.
  - intros j (e1 & sp0). rewrite bind_bind. apply bind_cong; intros sp. rewrite bind_bind.
    etransitivity; [|apply bind_ret_r]. apply bind_cong; intros e2. rewrite bind_ret_l. reflexivity.
Qed.
Lemma opt_sa_left_faithful en g im avx N eb out s e seedA :
  opt_sa_plus_e en g im avx N eb out s e seedA =
  bind (opt_sa_plus_e_left en g im avx N eb out s e seedA) (fun '(o, e, _) => ret (o, e)).
Proof.
  unfold opt_sa_plus_e, opt_sa_plus_e_left; cbv zeta. rewrite bind_bind. apply bind_cong; intros st0.
  match goal with |- context [for_step 0 N 8 ?b' (?x, ?y, ?z, [])] =>
    rewrite (for_step_proj (fun '(o, a, st, _) => (o, a, st)) 0 N 8 _ b' (x, y, z, [])) end.
  - rewrite !bind_bind. apply bind_cong; intros (((o & a) & st) & q). rewrite bind_ret_l.
    rewrite bind_bind. apply bind_cong; intros ?. rewrite bind_bind. apply bind_cong; intros ?.
    rewrite bind_ret_l; reflexivity.
  - intros i (((o & a) & st) & q). rewrite !bind_bind. apply bind_cong; intros (a1 & st1).
    destruct avx; [rewrite sa_block_avx_left_faithful|rewrite sa_block_left_faithful];
      rewrite !bind_bind; apply bind_cong; intros (? & ?); rewrite !bind_ret_l; reflexivity.
Qed.
Lemma sa_left_faithful C eb out s e seedA :
  sa_plus_e C eb out s e seedA = bind (sa_plus_e_left C eb out s e seedA) (fun '(o, e, _) => ret (o, e)).
Proof.
  unfold sa_plus_e, sa_plus_e_left. destruct (cImpl C); [|apply opt_sa_left_faithful..].
  rewrite bind_bind. apply bind_cong; intros o. rewrite bind_ret_l. reflexivity.
Qed.

(** Entries o, ..., o + 7 of s: as they are, or each copied to the 16 lanes of a vector. *)
Definition eight (avx : bool) (s : list Z) (o : Z) : list Z :=
  if avx then ztab 128 (fun t => znth s (o + t / 16)) else ztab 8 (fun t => znth s (o + t)).
Lemma sa_block_left_pc N i A s e :
  pc (sa_block_left N i A s e) (fun '(_, sp) => sp = eight false s (7 * N + i)).
Proof.
  unfold sa_block_left, NBAR.
  eapply pc_mono; [apply (pc_for (fun j '(_, sp) => 0 < j -> sp = eight false s ((j - 1) * N + i)))|].
  - lia.
  - lia.
  - intros j (e1 & sp0) Hj _. eapply pc_bind.
    { apply (pc_for (fun p sp => zlen sp = 8 /\ forall k, 0 <= k < p -> znth sp k = znth s (j * N + i + k)) 0 8);
        [lia|split; [reflexivity|intros; lia]|].
      intros p sp Hp (L & H). eapply pc_bind; [apply pc_rd|]. intros x ->. eapply pc_mono; [apply pc_wr|].
      intros sp' (-> & _). split; [now rewrite zlen_zset|]. intros k Hk. rewrite znth_zset by lia.
      destruct (Z.eqb_spec p k) as [->|]; [reflexivity|apply H; lia]. }
    intros sp (L & H). eapply pc_bind; [apply pc_any|]. intros e2 _. apply pc_ret. intros _.
    unfold eight. apply list_ext; [rewrite zlen_ztab; lia|]. intros k Hk. rewrite znth_ztab, H by lia. f_equal; lia.
  - intros (e1 & sp) H. rewrite H by lia. f_equal; lia.
Qed.
Lemma sa_block_avx_left_pc eb N i A s e :
  pc (sa_block_avx_left eb N i A s e) (fun '(_, sp) => sp = eight true s (7 * N + i)).
Proof.
  unfold sa_block_avx_left, NBAR.
  eapply pc_mono; [apply (pc_for (fun j '(_, sp) => 0 < j -> sp = eight true s ((j - 1) * N + i)))|].
  - lia.
  - lia.
  - intros j (e1 & sp0) Hj _. eapply pc_bind.
    { apply (pc_for (fun p sp => zlen sp = 128 /\ forall k, 0 <= k < 16 * p -> znth sp k = znth s (j * N + i + k / 16)) 0 8);
        [lia|split; [reflexivity|intros; lia]|].
      intros p sp Hp (L & H). eapply pc_bind; [apply pc_rd|]. intros x ->. eapply pc_mono; [apply pc_put|].
      intros sp' (-> & H0 & H1). unfold mm256_set1_epi16 in *. rewrite zlen_zrep in H1 by lia.
      split; [rewrite zlen_zsplice; [exact L|exact H0|rewrite zlen_zrep; lia]|].
      intros k Hk. rewrite znth_zsplice by (rewrite ?zlen_zrep; lia). rewrite zlen_zrep by lia.
      destruct (Z.leb_spec (16 * p) k); destruct (Z.ltb_spec k (16 * p + 16)); cbn [andb]; try lia.
      - rewrite znth_zrep by lia. do 2 f_equal. apply Z.div_unique with (r := k - 16 * p); lia.
      - apply H; lia. }
    intros sp (L & H). eapply pc_bind; [apply pc_any|]. intros e2 _. apply pc_ret. intros _.
    unfold eight. apply list_ext; [rewrite zlen_ztab; lia|]. intros k Hk. rewrite znth_ztab, H by lia. f_equal; lia.
  - intros (e1 & sp) H. rewrite H by lia. f_equal; lia.
Qed.
Lemma opt_sa_left_pc en g im avx N eb out s e seedA : 8 <= N -> N mod 8 = 0 ->
  pc (opt_sa_plus_e_left en g im avx N eb out s e seedA) (fun '(_, _, sp) => sp = eight avx s (8 * N - 8)).
Proof.
  intros HN HN8. unfold opt_sa_plus_e_left; cbv zeta. eapply pc_bind; [apply pc_any|]. intros st0 _.
  eapply pc_bind.
  - apply (pc_for_step (fun i '(_, _, _, sp) => 0 < i -> sp = eight avx s (7 * N + i - 8)) N 8 (N / 8));
      [lia|dlia|dlia|lia|].
    intros i (((e1 & a) & st) & sp0) Hi HiN _. eapply pc_bind; [apply pc_any|]. intros (a1 & st1) _.
    eapply pc_bind with (P := fun '(_, sp) => sp = eight avx s (7 * N + i)).
    + destruct avx; [apply sa_block_avx_left_pc|apply sa_block_left_pc].
    + intros (e2 & sp) ->. apply pc_ret. intros _. f_equal; lia.
  - intros (((e1 & a) & st) & sp) H. eapply pc_bind; [apply pc_any|]. intros ? _.
    eapply pc_bind; [apply pc_any|]. intros ? _. apply pc_ret. rewrite H by lia. f_equal; lia.
Qed.

(** What the call leaves in sp, for the first matrix argument [s]. *)
Definition sp_of (im : impl) (N : Z) (s : list Z) : list Z :=
  match im with
  | Reference => []
  | Optimized => ztab 8 (fun t => znth s (8 * N - 8 + t))
  | AVX2 => ztab 128 (fun t => znth s (8 * N - 8 + t / 16))
  end.
Lemma sa_left_wp C (V : valid (cP C)) out s e seedA : build_ok C -> mat_args (cP C) out s e seedA ->
  wp (sa_plus_e_left C (2 * NN (cP C)) out s e seedA) (fun '(o, e', sp) =>
    (o = SA_plus_E 65536 (pN (cP C)) (A_spec (cGen C) (pN (cP C)) seedA) s e /\ zlen e' = NN (cP C)) /\
    sp = sp_of (cImpl C) (pN (cP C)) s).
Proof.
  intros Hb M. pose proof (sa_wp C V out s e seedA Hb M) as H. rewrite sa_left_faithful in H.
  pose proof (v_N _ V) as HN. pose proof (v_N16 _ V) as HN16.
  eapply wp_mono; [eapply wp_pc with (f := fst) (R := fun '(_, _, sp) => sp = sp_of (cImpl C) (pN (cP C)) s)|].
  - replace (bind _ _) with (bind (sa_plus_e_left C (2 * NN (cP C)) out s e seedA) (fun '(o, e, _) => ret (o, e))); [exact H|].
    apply bind_cong; intros ((? & ?) & ?); reflexivity.
  - unfold sa_plus_e_left. destruct (cImpl C).
    + eapply pc_bind; [apply pc_any|]. intros o _. apply pc_ret; reflexivity.
    + apply opt_sa_left_pc; dlia.
    + apply opt_sa_left_pc; dlia.
  - intros ((o & e') & sp) (H1 & H2). split; [exact H1|exact H2].
Qed.

(** S' of the published encryption. *)
Definition Sprime (P : params) (pkh mu : list Z) : list Z :=
  SampleMatrix P (Hash P (150 :: firstn (Z.to_nat (pCB P)) (Hash P (pkh ++ mu) (2 * pCB P))) (2 * (16 * pN P + 64)))
    0 (8 * pN P).

Section Kem.
Variable C : config.
Local Notation P := (cP C).
Hypothesis V : valid P.
Local Notation g := (cGen C).

Lemma shake_to_left_wp mem o n inp m : 0 <= o -> 0 <= n -> o + n <= zlen mem -> bytes_ok inp -> m = zlen inp ->
  wp (shake_to_left P mem o n inp m) (fun '(mem', f) =>
    mem' = zsplice mem o (Hash P inp n) /\ left_by (pRate P) inp n f).
Proof.
  intros Ho Hn Hl Hb ->; unfold shake_to_left.
  apply wp_bind, wp_sub; auto. apply wp_bind. eapply wp_mono; [apply shake_left_wp; [apply (v_rate P V)|apply zlen_zslice; lia|exact Hb]|].
  intros f Hf. pose proof Hf as (E & _). rewrite <- (Hash_r C V) in E.
  apply wp_bind, wp_put; [exact Ho|rewrite E, (zlen_Hash C V); lia|]. apply wp_ret. rewrite E. auto.
Qed.

Lemma shake_to_left_self mem o n inp m : 0 <= o -> 0 <= n -> o + n <= zlen mem -> bytes_ok inp -> m = zlen inp ->
  wp (shake_to_left P mem o n inp m) (fun '(mem', f) =>
    mem' = zsplice mem o (Hash P inp n) /\ returns (shake_left (pRate P) (zslice mem o n) n inp m) f).
Proof.
  intros Ho Hn Hl Hb ->; unfold shake_to_left. apply wp_bind, wp_sub; auto. apply wp_bind.
  pose proof (shake_left_wp (pRate P) (zslice mem o n) n inp (v_rate P V) (zlen_zslice mem o n Ho Hn Hl) Hb) as H.
  apply wp_returns_ex in H. destruct H as (f & HR & (E & _)). rewrite <- (Hash_r C V) in E.
  eapply wp_mono; [apply returns_wp, HR|]. intros f' ->.
  apply wp_bind, wp_put; [exact Ho|rewrite E, (zlen_Hash C V); lia|]. apply wp_ret. rewrite E. auto.
Qed.
Lemma keypair_left_wp rb rc mem pk sk s seedSE z :
  zlen s = pCB P -> zlen seedSE = pCB P -> zlen z = 16 -> bytes_ok s -> bytes_ok seedSE -> bytes_ok z ->
  returns (rb (uninit (2 * pCB P + 16)) (2 * pCB P + 16)) (s ++ seedSE ++ z, rc) ->
  0 <= pk -> pk + pkBytes P <= zlen mem -> 0 <= sk -> sk + skBytes P <= zlen mem ->
  pk + pkBytes P <= sk \/ sk + skBytes P <= pk ->
  wp (crypto_kem_keypair_left C rb mem pk sk) (fun '(mem', l, r, f) =>
    r = 0 /\ mem' = zsplice (zsplice mem pk (fst (KeyGen P g s seedSE z))) sk (snd (KeyGen P g s seedSE z)) /\
    exists buf, zlen buf = pCB P /\ returns (shake_left (pRate P) buf (pCB P) (fst (KeyGen P g s seedSE z)) (pkBytes P)) f).
Proof.
  intros Ls Lse Lz Bs Bse Bz (tr & Erb) Hpk Hpk2 Hsk Hsk2 Hdis.
  destruct (sizes C V) as (HN & HD & HB & HCB & ENN & EbB & HDN & EbC & EbMu & Epk & Esk & Ect & Esp & EH).
  unfold crypto_kem_keypair_left; cbv zeta. unfold SEEDA.
  apply wp_bind. replace (pCB P + pCB P + 16) with (2 * pCB P + 16) by lia. rewrite Erb. apply wp_ok.
  apply wp_bind, (sub_mid _ (s ++ seedSE) z []); [now rewrite app_nil_r, <- app_assoc|rewrite zlen_app; lia|lia|].
  apply wp_bind, (shake_to_wp C V); [lia|lia|lia|exact Bz|lia|].
  set (seedA := Hash P z 16).
  assert (LsA : zlen seedA = 16) by (apply (zlen_Hash C V); lia).
  assert (BsA : bytes_ok seedA) by (apply (Hash_ok C V)).
  set (m1 := zsplice mem pk seedA).
  assert (Lm1 : zlen m1 = zlen mem) by (apply zlen_zsplice; lia).
  apply wp_bind, wp_wr; [rewrite zlen_uninit; lia|].
  set (U1 := uninit (pCB P)).
  assert (LU1 : zlen U1 = pCB P) by (apply zlen_uninit; lia).
  replace (zset (uninit (1 + pCB P)) 0 95) with ([95] ++ U1) by (unfold U1; rewrite uninit_cons by lia; reflexivity).
  apply wp_bind, (memcpy_mid _ [95] U1 [] _ s seedSE z); [now rewrite app_nil_r|reflexivity|reflexivity|lia|lia|lia|].
  rewrite app_nil_r. cbn [app].
  apply (hash_words_wp C V _ _ (2 * NN P)); [lia|apply zlen_zrep; lia|lia| |rewrite zlen_cons; lia|lia|].
  { constructor; [lia|exact Bse]. }
  set (r := Hash P (95 :: seedSE) (2 * (2 * NN P))).
  assert (Br : bytes_ok r) by apply (Hash_ok C V).
  replace (hwords r 0 (2 * NN P)) with (hwords r 0 (NN P) ++ hwords r (NN P) (NN P)).
  2:{ replace (2 * NN P) with (NN P + NN P) by lia. rewrite hwords_split by lia. reflexivity. }
  apply wp_bind, (sample_mid C V _ [] (hwords r 0 (NN P)) (hwords r (NN P) (NN P)));
    [reflexivity|reflexivity|rewrite zlen_hwords; lia|apply hwords_ok; exact Br|]. cbn [app].
  apply wp_bind, (sample_mid C V _ (map (fun x => sample_spec (pCDF P) x mod 65536) (hwords r 0 (NN P))) (hwords r (NN P) (NN P)) []);
    [now rewrite app_nil_r|rewrite zlen_map, zlen_hwords; lia|rewrite zlen_hwords; lia|apply hwords_ok; exact Br|].
  rewrite app_nil_r. rewrite !sample_hwords.
  set (St := SampleMatrix P r 0 (NN P)). set (E := SampleMatrix P r (NN P) (NN P)).
  assert (LSt : zlen St = NN P) by (apply zlen_ztab; lia).
  assert (LE : zlen E = NN P) by (apply zlen_ztab; lia).
  apply wp_bind, (sub_mid _ [] (map w16 St) (map w16 E)); [reflexivity|reflexivity|rewrite zlen_map; lia|].
  apply wp_bind, (sub_mid _ (map w16 St) (map w16 E) []); [now rewrite app_nil_r|rewrite zlen_map; lia|rewrite zlen_map; lia|].
  apply wp_bind, wp_sub; [lia|lia|lia|]. unfold m1 at 1. rewrite zsplice_same_read by lia.
  apply wp_bind; eapply wp_mono; [apply (as_wp C V)|].
  { unfold mat_args. rewrite !zlen_map, zlen_zrep, LSt, LE by lia. repeat split; try lia; try apply w16_map_ok. exact BsA. }
  intros B ->. set (Bm := AS_plus_E 65536 (pN P) (A_spec g (pN P) seedA) (map w16 St) (map w16 E)).
  assert (LBm : zlen Bm = pN P * 8) by (apply zlen_AS; lia).
  replace (pkBytes P - 16) with (pD P * pN P) by lia.
  apply wp_bind, wp_sub; [lia|lia|lia|].
  apply wp_bind; eapply wp_mono; [apply (pack_mod C V); [apply zlen_zslice; lia|apply AS_ok|lia]|].
  intros b ->. unfold Bm at 1; rewrite AS_w16 by (pose proof (v_D P V); lia).
  set (BB := AS_plus_E (2 ^ pD P) (pN P) (A_spec g (pN P) seedA) St E).
  assert (LBB : zlen BB = pN P * 8) by (apply zlen_AS; lia).
  replace (pack_spec (pD P) (pD P * pN P) BB) with (Pack P BB).
  2:{ unfold Pack; f_equal. rewrite LBB. rewrite Z.mul_assoc. apply Z.div_mul; lia. }
  pose proof (zlen_PackB C V BB LBB) as LPB.
  apply wp_bind, wp_put; [lia|lia|].
  replace (pk + 16) with (pk + zlen seedA) by lia. unfold m1; rewrite zsplice_adj by lia.
  set (PK := seedA ++ Pack P BB).
  assert (LPK : zlen PK = pkBytes P) by (unfold PK; rewrite zlen_app; lia).
  assert (BPK : bytes_ok PK) by (apply inrange_app; [exact BsA|apply Pack_ok]).
  set (m2 := zsplice mem pk PK). assert (Lm2 : zlen m2 = zlen mem) by (apply zlen_zsplice; lia).
  apply wp_bind, wp_memcpy; [lia|lia|lia|lia|rewrite !zlen_app; lia|].
  rewrite zslice_app1 by lia.
  assert (Lm3 : zlen (zsplice m2 sk s) = zlen mem) by (rewrite zlen_zsplice; lia).
  assert (Rpk : zslice m2 pk (pkBytes P) = PK) by (apply zsplice_same_read; lia).
  apply wp_bind. unfold memcpy_in.
  replace ((sk + pCB P + pkBytes P <=? pk) || (pk + pkBytes P <=? sk + pCB P)) with true.
  2:{ symmetry; apply orb_true_iff; rewrite !Z.leb_le. lia. }
  apply wp_memcpy; [lia|lia|lia|lia|lia|].
  rewrite zslice_zsplice_other by lia. rewrite Rpk.
  replace (sk + pCB P) with (sk + zlen s) by lia. rewrite zsplice_adj by lia.
  apply wp_bind; eapply wp_mono; [apply (host_to_le_wp C _ (map w16 St) (map w16 E)); [reflexivity|rewrite zlen_map; lia|apply w16_map_ok]|].
  intros S ->.
  set (SB := bytes_of_S St). assert (LSB : zlen SB = 2 * NN P) by (unfold SB; rewrite zlen_bytes_of_S; lia).
  assert (L4 : zlen (zsplice m2 sk (s ++ PK)) = zlen mem) by (rewrite zlen_zsplice; rewrite ?zlen_app; lia).
  apply wp_bind, wp_memcpy; [lia|lia|lia|lia| |].
  { rewrite zlen_bytes, zlen_app, !zlen_map; lia. }
  replace (zslice (bytes_of_words (cEn C) (map (UINT16_TO_LE (cEn C)) (map w16 St) ++ map w16 E)) 0 (2 * NN P)) with SB.
  2:{ unfold SB; rewrite <- (bytes_of_S_eq (cEn C)). symmetry. rewrite bytes_of_words_app.
      apply zslice_app1. rewrite zlen_bytes, !zlen_map; lia. }
  replace (sk + zlen s + pkBytes P) with (sk + zlen (s ++ PK)) by (rewrite zlen_app; lia).
  rewrite zsplice_adj by (rewrite ?zlen_app; lia).
  set (X := (s ++ PK) ++ SB). assert (LX : zlen X = pCB P + pkBytes P + 2 * NN P) by (unfold X; rewrite !zlen_app; lia).
  assert (L5 : zlen (zsplice m2 sk X) = zlen mem) by (rewrite zlen_zsplice; lia).
  apply wp_bind, wp_sub; [lia|lia|lia|]. rewrite zslice_zsplice_other by lia. rewrite Rpk.
  replace (sk + zlen (s ++ PK) + 2 * NN P) with (sk + zlen X) by (rewrite zlen_app; lia).
  rewrite EH. apply wp_bind; eapply wp_mono; [apply shake_to_left_self; [lia|lia|lia|exact BPK|lia]|].
  intros (m5 & f) (-> & HF).
  set (H := Hash P PK (pCB P)). assert (LH : zlen H = pCB P) by (apply (zlen_Hash C V); lia).
  rewrite zsplice_adj by lia.
  set (S1 := map (UINT16_TO_LE (cEn C)) (map w16 St)).
  assert (LS1 : zlen S1 = NN P) by (unfold S1; rewrite !zlen_map; lia).
  apply wp_bind, (clear_words_mid _ _ [] S1 (map w16 E)); [reflexivity|reflexivity|lia|]. cbn [app].
  apply wp_bind, (clear_words_mid _ _ (zrep (NN P) 0) (map w16 E) []);
    [now rewrite app_nil_r|rewrite zlen_zrep; lia|rewrite zlen_map; lia|]. rewrite app_nil_r.
  apply wp_bind, (clear_mid _ [] (s ++ seedSE) z); [now rewrite <- app_assoc|reflexivity|rewrite zlen_app; lia|]. cbn [app].
  apply wp_bind, (clear_mid _ [] (95 :: seedSE) []); [now rewrite app_nil_r|reflexivity|rewrite zlen_cons; lia|].
  apply wp_ret. split; [reflexivity|].
  assert (EK : KeyGen P g s seedSE z = (PK, X ++ H)).
  { unfold KeyGen, X, H, SB, PK, BB, St, E, r, seedA.
    replace (2 * (2 * NN P)) with (2 * (16 * pN P)) by lia. replace (NN P) with (8 * pN P) by lia.
    now rewrite <- !app_assoc. }
  rewrite EK. cbn [fst snd]. split; [reflexivity|].
  exists (zslice (zsplice m2 sk X) (sk + zlen X) (pCB P)). split; [apply zlen_zslice; lia|exact HF].
Qed.

Lemma enc_left_wp rb rc mem ct ss pk mu :
  (build_ok C) ->
  zlen mu = bytesMu P -> bytes_ok mu ->
  returns (rb (uninit (bytesMu P)) (bytesMu P)) (mu, rc) ->
  0 <= pk -> pk + pkBytes P <= zlen mem -> bytes_ok (zslice mem pk (pkBytes P)) ->
  0 <= ct -> ct + ctBytes P <= zlen mem -> 0 <= ss -> ss + pCB P <= zlen mem ->
  (* c1 may not overlap b, which is read after c1 is written *)
  ct + bytesB P <= pk + 16 \/ pk + pkBytes P <= ct ->
  let '(c, k) := Encaps P g (zslice mem pk (pkBytes P)) mu in
  wp (crypto_kem_enc_left C rb mem ct ss pk) (fun '(mem', l, r, f, sp) =>
    r = 0 /\ mem' = zsplice (zsplice mem ct c) ss k /\
    sp = sp_of (cImpl C) (pN P) (map w16 (Sprime P (Hash P (zslice mem pk (pkBytes P)) (pCB P)) mu)) /\
    left_by (pRate P) (c ++ skipn (Z.to_nat (pCB P)) (Hash P (Hash P (zslice mem pk (pkBytes P)) (pCB P) ++ mu) (2 * pCB P))) (pCB P) f).
Proof.
  intros Hbo Lmu Bmu (tr & Erb) Hpk Hpk2 Bpk Hct Hct2 Hss Hss2 Hdis.
  destruct (sizes C V) as (HN & HD & HB & HCB & ENN & EbB & HDN & EbC & EbMu & Epk & Esk & Ect & Esp & EH).
  destruct (Encaps P g (zslice mem pk (pkBytes P)) mu) as [c k] eqn:EE.
  unfold crypto_kem_enc_left; cbv zeta. unfold SEEDA, NBAR. change (8 * 8) with 64. rewrite EH.
  set (PK := zslice mem pk (pkBytes P)) in *.
  assert (LPK : zlen PK = pkBytes P) by (apply zlen_zslice; lia).
  assert (ESA : zslice mem pk 16 = firstn 16 PK).
  { unfold PK. replace (pkBytes P) with (16 + (pkBytes P - 16)) by lia. rewrite zslice_split by lia.
    change 16%nat with (Z.to_nat 16). change (firstn (Z.to_nat 16) ?l) with (zslice l 0 16).
    rewrite zslice_app1; [reflexivity|apply zlen_zslice; lia]. }
  assert (Eb : zslice mem (pk + 16) (pD P * pN P) = skipn 16 PK).
  { unfold PK. replace (pkBytes P) with (16 + pD P * pN P) by lia. rewrite zslice_split by lia.
    rewrite skipn_app, skipn_all2; [|unfold zslice; rewrite firstn_length; lia]. cbn [app].
    assert (length (zslice mem pk 16) = 16%nat).
    { pose proof (zlen_zslice mem pk 16 ltac:(lia) ltac:(lia) ltac:(lia)). unfold zlen in *; lia. }
    rewrite H. reflexivity. }
  assert (BSA : bytes_ok (firstn 16 PK)) by (apply inrange_firstn; exact Bpk).
  assert (Bb : bytes_ok (skipn 16 PK)) by (apply inrange_skipn; exact Bpk).
  assert (LSA : zlen (firstn 16 PK) = 16) by (rewrite <- ESA; apply zlen_zslice; lia).
  assert (Lb : zlen (skipn 16 PK) = pD P * pN P) by (rewrite <- Eb; apply zlen_zslice; lia).
  set (seedA := firstn 16 PK) in *. set (b := skipn 16 PK) in *.
  (* 103-108 *)
  apply wp_bind, wp_sub; [lia|lia|lia|]. fold PK.
  assert (EU : uninit (pCB P + bytesMu P) = uninit (pCB P) ++ uninit (bytesMu P)) by (symmetry; apply zrep_app; lia).
  apply wp_bind, (shake_to_mid C V _ [] (uninit (pCB P)) (uninit (bytesMu P)));
    [exact EU|reflexivity|rewrite zlen_uninit; lia|exact Bpk|lia|]. cbn [app].
  set (pkh := Hash P PK (pCB P)).
  assert (Lpkh : zlen pkh = pCB P) by (apply (zlen_Hash C V); lia).
  apply wp_bind, (sub_mid _ pkh (uninit (bytesMu P)) []); [now rewrite app_nil_r|lia|rewrite zlen_uninit; lia|].
  apply wp_bind. rewrite Erb. apply wp_ok.
  apply wp_bind, (put_mid _ pkh (uninit (bytesMu P)) []); [now rewrite app_nil_r|lia|rewrite zlen_uninit; lia|].
  rewrite app_nil_r.
  apply wp_bind, (shake_to_mid C V _ [] (uninit (2 * pCB P)) []);
    [now rewrite app_nil_r|reflexivity|rewrite zlen_uninit; lia|apply inrange_app; [apply (Hash_ok C V)|exact Bmu]|rewrite zlen_app; lia|].
  rewrite app_nil_r; cbn [app]. replace (pCB P + pCB P) with (2 * pCB P) by lia.
  set (G2 := Hash P (pkh ++ mu) (2 * pCB P)).
  assert (LG2 : zlen G2 = 2 * pCB P) by (apply (zlen_Hash C V); lia).
  assert (BG2 : bytes_ok G2) by apply (Hash_ok C V).
  set (seedSE := firstn (Z.to_nat (pCB P)) G2). set (kk := skipn (Z.to_nat (pCB P)) G2).
  assert (EG2 : G2 = seedSE ++ kk) by (symmetry; apply firstn_skipn).
  assert (Lse : zlen seedSE = pCB P) by (unfold seedSE, zlen in *; rewrite firstn_length; lia).
  assert (Lkk : zlen kk = pCB P) by (unfold kk, zlen in *; rewrite skipn_length; lia).
  assert (Bse : bytes_ok seedSE) by (apply inrange_firstn; exact BG2).
  assert (Bkk : bytes_ok kk) by (apply inrange_skipn; exact BG2).
  (* 111-116 *)
  apply wp_bind, wp_wr; [rewrite zlen_uninit; lia|].
  set (U1 := uninit (pCB P)).
  assert (LU1 : zlen U1 = pCB P) by (apply zlen_uninit; lia).
  replace (zset (uninit (1 + pCB P)) 0 150) with ([150] ++ U1) by (unfold U1; rewrite uninit_cons by lia; reflexivity).
  apply wp_bind, (memcpy_mid _ [150] U1 [] _ [] seedSE kk); [now rewrite app_nil_r|exact EG2|reflexivity|reflexivity|lia|lia|].
  rewrite app_nil_r. cbn [app].
  apply (hash_words_wp C V _ _ (spLen P)); [lia|apply zlen_zrep; lia|lia| |rewrite zlen_cons; lia|lia|].
  { constructor; [lia|exact Bse]. }
  set (r := Hash P (150 :: seedSE) (2 * spLen P)).
  assert (Br : bytes_ok r) by apply (Hash_ok C V).
  replace (hwords r 0 (spLen P)) with (hwords r 0 (NN P) ++ hwords r (NN P) (NN P) ++ hwords r (2 * NN P) 64).
  2:{ replace (spLen P) with (NN P + (NN P + 64)) by lia. rewrite !hwords_split by lia.
      replace (0 + NN P + NN P) with (2 * NN P) by lia. reflexivity. }
  (* 117-120 *)
  apply wp_bind, (sample_mid C V _ [] (hwords r 0 (NN P)) (hwords r (NN P) (NN P) ++ hwords r (2 * NN P) 64));
    [reflexivity|reflexivity|rewrite zlen_hwords; lia|apply hwords_ok; exact Br|]. cbn [app]. rewrite sample_hwords.
  set (S' := SampleMatrix P r 0 (NN P)). assert (LS' : zlen S' = NN P) by (apply zlen_ztab; lia).
  apply wp_bind, (sample_mid C V _ (map w16 S') (hwords r (NN P) (NN P)) (hwords r (2 * NN P) 64));
    [reflexivity|rewrite zlen_map; lia|rewrite zlen_hwords; lia|apply hwords_ok; exact Br|]. rewrite sample_hwords.
  set (E' := SampleMatrix P r (NN P) (NN P)). assert (LE' : zlen E' = NN P) by (apply zlen_ztab; lia).
  apply wp_bind, (sub_mid _ [] (map w16 S') (map w16 E' ++ hwords r (2 * NN P) 64)); [reflexivity|reflexivity|rewrite zlen_map; lia|].
  apply wp_bind, (sub_mid _ (map w16 S') (map w16 E') (hwords r (2 * NN P) 64)); [reflexivity|rewrite zlen_map; lia|rewrite zlen_map; lia|].
  apply wp_bind, wp_sub; [lia|lia|lia|]. rewrite ESA.
  apply wp_bind; eapply wp_mono; [apply (sa_left_wp C V); [exact Hbo|]|].
  { unfold mat_args. rewrite !zlen_map, zlen_zrep, LS', LE' by lia. repeat split; try lia; try apply w16_map_ok. exact BSA. }
  intros [[Bp e'] sp] ((EBp & Le') & Esprm).
  apply wp_bind, (put_mid _ (map w16 S') (map w16 E') (hwords r (2 * NN P) 64)); [reflexivity|rewrite zlen_map; lia|rewrite zlen_map; lia|].
  assert (LBp : zlen Bp = pN P * 8) by (rewrite EBp; apply zlen_SA; lia).
  assert (EBB : map (fun x => x mod 2 ^ pD P) Bp = SA_plus_E (2 ^ pD P) (pN P) (A_spec g (pN P) seedA) S' E').
  { rewrite EBp. apply SA_w16. pose proof (v_D P V); lia. }
  set (BB := SA_plus_E (2 ^ pD P) (pN P) (A_spec g (pN P) seedA) S' E') in *.
  assert (LBB : zlen BB = pN P * 8) by (apply zlen_SA; lia).
  apply wp_bind, wp_sub; [lia|lia|lia|].
  apply wp_bind; eapply wp_mono; [apply (pack_mod C V); [apply zlen_zslice; lia|rewrite EBp; apply SA_ok|lia]|].
  intros x ->. rewrite EBB. 
  replace (pack_spec (pD P) (bytesB P) BB) with (Pack P BB).
  2:{ unfold Pack; f_equal. rewrite LBB, EbB. rewrite Z.mul_assoc. apply Z.div_mul; lia. }
  pose proof ((zlen_PackB C V) BB LBB) as LPB.
  apply wp_bind, wp_put; [lia|lia|].
  set (m1 := zsplice mem ct (Pack P BB)). assert (Lm1 : zlen m1 = zlen mem) by (apply zlen_zsplice; lia).
  (* 123-125 *)
  apply wp_bind, (sample_mid C V _ (map w16 S' ++ e') (hwords r (2 * NN P) 64) []);
    [now rewrite app_nil_r, <- app_assoc|rewrite zlen_app, zlen_map; lia|rewrite zlen_hwords; lia|apply hwords_ok; exact Br|].
  rewrite sample_hwords, app_nil_r, <- app_assoc.
  set (E'' := SampleMatrix P r (2 * NN P) 64). assert (LE'' : zlen E'' = 64) by (apply zlen_ztab; lia).
  apply wp_bind, wp_sub; [lia|lia|lia|].
  replace (pkBytes P - 16) with (pD P * pN P) by lia. unfold m1 at 1; rewrite zslice_zsplice_other by lia. rewrite Eb.
  apply wp_bind; eapply wp_mono; [apply (unpack_wp C V); [apply zlen_zrep; lia|exact Bb|lia]|].
  intros B ->. set (B := Unpack P (NN P) b).
  assert (LB : zlen B = pN P * 8) by (unfold B; rewrite zlen_Unpack; lia).
  apply wp_bind, (sub_mid _ [] (map w16 S') (e' ++ map w16 E'')); [reflexivity|reflexivity|rewrite zlen_map; lia|].
  apply wp_bind, (sub_mid _ (map w16 S' ++ e') (map w16 E'') []);
    [now rewrite app_nil_r, <- app_assoc|rewrite zlen_app, zlen_map; lia|rewrite zlen_map; lia|].
  apply wp_bind; eapply wp_mono; [apply (sb_plus_e_wp P V);
    [apply zlen_zrep; lia|apply inrange_zrep0; lia|exact LB|apply (Unpack_ok16 C V)|rewrite zlen_map; lia|apply w16_map_ok|rewrite zlen_map; lia|apply w16_map_ok]|].
  intros Vm ->. rewrite SB_w16 by (pose proof (v_D P V); lia). set (Vm := SB_E_spec (2 ^ pD P) (pN P) S' B E'').
  assert (LV : zlen Vm = 64) by (apply zlen_ztab; lia).
  (* 128-130 *)
  apply wp_bind, (sub_mid _ pkh mu []); [now rewrite app_nil_r|lia|lia|].
  apply wp_bind; eapply wp_mono; [apply (key_encode_wp P V); [apply zlen_zrep; lia|lia|exact Bmu]|]. intros Cm ->.
  apply wp_bind; eapply wp_mono; [apply (add_wp P V); [exact LV|apply (ztab_mod_ok C V)|apply (zlen_encode C)|apply (encode_ok C V)]|]. intros Cm ->.
  set (Cm := add_spec (2 ^ pD P) Vm (encode_spec (pD P) (pB P) mu)).
  assert (LC : zlen Cm = 64) by (apply zlen_ztab; lia).
  apply wp_bind, wp_sub; [lia|lia|lia|].
  apply wp_bind; eapply wp_mono; [apply (pack_mod C V); [apply zlen_zslice; lia|apply (ztab_mod_ok C V)|lia]|].
  intros x ->.
  assert (RC : inrange (2 ^ pD P) Cm).
  { apply inrange_ztab; intros; apply Z.mod_pos_bound. pose proof (pow2_le_16 (pD P)); pose proof (v_D P V); lia. }
  rewrite (map_mod_small (2 ^ pD P) Cm) by exact RC.
  replace (pack_spec (pD P) (bytesC P) Cm) with (Pack P Cm).
  2:{ unfold Pack; f_equal. rewrite LC, EbC. dlia. }
  pose proof ((zlen_PackC C V) Cm LC) as LPC.
  apply wp_bind, wp_put; [lia|lia|].
  unfold m1. replace (ct + bytesB P) with (ct + zlen (Pack P BB)) by lia. rewrite zsplice_adj by lia.
  set (CT := Pack P BB ++ Pack P Cm).
  assert (LCT : zlen CT = ctBytes P) by (unfold CT; rewrite zlen_app; lia).
  assert (BCT : bytes_ok CT) by (apply inrange_app; apply Pack_ok).
  set (m2 := zsplice mem ct CT). assert (Lm2 : zlen m2 = zlen mem) by (apply zlen_zsplice; lia).
  (* 133-135 *)
  assert (EF : uninit (ctBytes P + pCB P) = uninit (ctBytes P) ++ uninit (pCB P)) by (symmetry; apply zrep_app; lia).
  apply wp_bind, wp_memcpy; [lia|lia|lia|rewrite zlen_uninit; lia|lia|].
  replace (zslice m2 ct (ctBytes P)) with CT by (symmetry; apply zsplice_same_read; lia).
  rewrite EF. change (uninit (ctBytes P) ++ uninit (pCB P)) with ([] ++ uninit (ctBytes P) ++ uninit (pCB P)).
  rewrite (zsplice_mid _ (uninit (ctBytes P))) by (rewrite ?zlen_uninit; try reflexivity; lia). cbn [app].
  apply wp_bind, (memcpy_mid _ CT (uninit (pCB P)) [] _ seedSE kk []);
    [now rewrite app_nil_r|now rewrite app_nil_r|lia|lia|rewrite zlen_uninit; lia|lia|]. rewrite app_nil_r.
  apply wp_bind; eapply wp_mono; [apply shake_to_left_wp; [lia|lia|lia|apply inrange_app; auto|rewrite zlen_app; lia]|]. intros (m3, f) (-> & HF).
  (* 138-145 *)
  apply wp_bind, (clear_words_mid _ _ [] Vm []); [now rewrite app_nil_r|reflexivity|lia|]. cbn [app].
  apply wp_bind, (clear_words_mid _ _ [] (map w16 S') (e' ++ map w16 E'')); [reflexivity|reflexivity|rewrite zlen_map; lia|]. cbn [app].
  apply wp_bind, (clear_words_mid _ _ (zrep (NN P) 0) e' (map w16 E'')); [reflexivity|rewrite zlen_zrep; lia|lia|].
  apply wp_bind, (clear_words_mid _ _ (zrep (NN P) 0 ++ zrep (NN P) 0) (map w16 E'') []);
    [now rewrite app_nil_r, <- app_assoc|rewrite zlen_app, zlen_zrep; lia|rewrite zlen_map; lia|]. rewrite app_nil_r.
  apply wp_bind, (clear_mid _ pkh mu []); [now rewrite app_nil_r|lia|lia|]. rewrite app_nil_r.
  apply wp_bind, (clear_mid _ [] G2 []); [now rewrite app_nil_r|reflexivity|lia|]. cbn [app].
  apply wp_bind, (clear_mid _ CT kk []); [now rewrite app_nil_r|lia|lia|]. rewrite app_nil_r.
  apply wp_bind, (clear_mid _ [] (150 :: seedSE) []); [now rewrite app_nil_r|reflexivity|rewrite zlen_cons; lia|].
  apply wp_ret. 
  assert (EK : Encaps P g PK mu = (CT, Hash P (CT ++ kk) (pCB P))).
  { unfold Encaps, Encrypt. fold seedA b pkh G2. fold seedSE kk.
    replace (2 * (16 * pN P + 64)) with (2 * spLen P) by lia. fold r.
    replace (8 * pN P) with (NN P) by lia. replace (16 * pN P) with (2 * NN P) by lia. reflexivity. }
  rewrite EE in EK; injection EK; intros -> ->. split; [reflexivity|]. split; [reflexivity|]. split; [|exact HF].
  rewrite Esprm. unfold Sprime. fold pkh G2. fold seedSE.
  replace (2 * (16 * pN P + 64)) with (2 * spLen P) by lia. fold r. replace (8 * pN P) with (NN P) by lia. reflexivity.
Qed.

Lemma dec_left_wp mem ss ct sk :
  (build_ok C) ->
  0 <= sk -> sk + skBytes P <= zlen mem -> bytes_ok (zslice mem sk (skBytes P)) -> sk mod 2 = 0 ->
  0 <= ct -> ct + ctBytes P <= zlen mem -> bytes_ok (zslice mem ct (ctBytes P)) ->
  0 <= ss -> ss + pCB P <= zlen mem ->
  let SK := zslice mem sk (skBytes P) in
  let CT := zslice mem ct (ctBytes P) in
  wp (crypto_kem_dec_left C mem ss ct sk) (fun '(mem', l, r, f, sp) =>
    r = 0 /\ mem' = zsplice mem ss (Decaps P g SK CT) /\
    sp = sp_of (cImpl C) (pN P) (map w16 (Sprime P (sk_pkh P SK) (Decrypt P SK CT))) /\
    left_by (pRate P) (CT ++ dec_key P g SK CT) (pCB P) f).
Proof.
  intros Hbo Hsk Hsk2 Bsk Hal Hct Hct2 Bct Hss Hss2 SK CT.
  destruct (sizes C V) as (HN & HD & HB & HCB & ENN & EbB & HDN & EbC & EbMu & Epk & Esk & Ect & Esp & EH).
  pose proof (v_D P V) as HD16.
  unfold crypto_kem_dec_left; cbv zeta. unfold SEEDA, NBAR. change (8 * 8) with 64. rewrite EH.
  rewrite (even_sk C V), Hal. cbn [Z.eqb].
  fold SK CT in Bsk, Bct.
  assert (Psk : forall o k, 0 <= o -> 0 <= k -> o + k <= skBytes P ->
     zslice mem (sk + o) k = part SK o k /\ zlen (part SK o k) = k /\ bytes_ok (part SK o k)).
  { intros o k Ho Hk Hok. unfold SK; rewrite part_mem by lia. split; [reflexivity|]. split; [apply zlen_zslice; lia|].
    rewrite <- (part_mem mem sk (skBytes P)) by lia. apply (inrange_zslice 256 _ o k Bsk). }
  assert (Pct : forall o k, 0 <= o -> 0 <= k -> o + k <= ctBytes P ->
     zslice mem (ct + o) k = part CT o k /\ zlen (part CT o k) = k /\ bytes_ok (part CT o k)).
  { intros o k Ho Hk Hok. unfold CT; rewrite part_mem by lia. split; [reflexivity|]. split; [apply zlen_zslice; lia|].
    rewrite <- (part_mem mem ct (ctBytes P)) by lia. apply (inrange_zslice 256 _ o k Bct). }
  destruct (Psk 0 (pCB P)) as (Ps & Ls & Bs); [lia..|]. rewrite Z.add_0_r in Ps.
  destruct (Psk (pCB P) 16) as (PA & LA & BA); [lia..|].
  destruct (Psk (pCB P + 16) (pD P * pN P)) as (Pb & Lb & Bb); [lia..|].
  destruct (Psk (pCB P + 16 + pD P * pN P) (16 * pN P)) as (PS & LS & BS); [lia..|].
  destruct (Psk (pCB P + 16 + pD P * pN P + 16 * pN P) (pCB P)) as (Ph & Lh & Bh); [lia..|].
  destruct (Pct 0 (pD P * pN P)) as (P1 & L1 & B1); [lia..|]. rewrite Z.add_0_r in P1.
  destruct (Pct (pD P * pN P) (pD P * 8)) as (P2 & L2 & B2); [lia..|].
  assert (LCT : zlen CT = ctBytes P) by (apply zlen_zslice; lia).
  (* 187-189 *)
  apply wp_bind, wp_sub; [lia|lia|lia|].
  replace (sk + pCB P + pkBytes P) with (sk + (pCB P + 16 + pD P * pN P)) by lia.
  replace (2 * NN P) with (16 * pN P) by lia. rewrite PS.
  apply wp_bind; eapply wp_mono; [apply (load_S_wp C V); [exact BS|lia]|]. intros S ->.
  set (Sw := ztab (NN P) (fun i => word16 (part SK (pCB P + 16 + pD P * pN P) (16 * pN P)) i)).
  assert (LSw : zlen Sw = NN P) by (apply zlen_ztab; lia).
  assert (USw : u16s_ok Sw) by (exact (hwords_ok _ 0 (NN P) BS)).
  (* 192-196 *)
  apply wp_bind, wp_sub; [lia|lia|lia|]. rewrite EbB, P1.
  apply wp_bind; eapply wp_mono; [apply (unpack_wp C V); [apply zlen_zrep; lia|exact B1|lia]|]. intros Bp EBp.
  replace (NN P) with (8 * pN P) in EBp by lia. fold (ct_B P CT) in EBp. subst Bp.
  assert (LcB : zlen (ct_B P CT) = 8 * pN P) by (apply zlen_Unpack; lia).
  assert (RcB : inrange (2 ^ pD P) (ct_B P CT)) by (apply (Unpack_ok C V)).
  apply wp_bind, wp_sub; [lia|lia|lia|]. rewrite EbC, P2.
  apply wp_bind; eapply wp_mono; [apply (unpack_wp C V); [apply zlen_zrep; lia|exact B2|lia]|]. intros Cm EC.
  cbv beta in EC. fold (ct_C P CT) in EC. subst Cm.
  assert (LcC : zlen (ct_C P CT) = 64) by (apply zlen_Unpack; lia).
  assert (RcC : inrange (2 ^ pD P) (ct_C P CT)) by (apply (Unpack_ok C V)).
  apply wp_bind; eapply wp_mono; [apply (mul_bs_wp P V);
    [apply zlen_zrep; lia|apply inrange_zrep0; lia|lia|apply (map_mod_ok C V); exact RcB|lia|exact USw]|]. intros W ->.
  assert (EW : BS_spec (2 ^ pD P) (pN P) (ct_B P CT) Sw = BS_spec (2 ^ pD P) (pN P) (ct_B P CT) (sk_St P SK)).
  { apply BS_cong; [lia|]. intros i Hi. unfold Sw, sk_St, S_of_bytes. rewrite !znth_ztab by lia.
    set (w := word16 _ _). unfold signed16. destruct (w <? 32768); [reflexivity|].
    replace (w - 65536) with (w + (- 2 ^ (16 - pD P)) * 2 ^ pD P).
    2:{ rewrite Z.mul_opp_l, <- Z.pow_add_r by lia. replace (16 - pD P + pD P) with 16 by lia. reflexivity. }
    symmetry; apply Z.mod_add, pow_nz; lia. }
  rewrite EW.
  apply wp_bind; eapply wp_mono; [apply (sub_wp P V); [lia|apply (map_mod_ok C V); exact RcC|apply zlen_ztab; lia|apply (ztab_mod_ok C V)]|]. intros W ->.
  assert (EU : uninit (pCB P + bytesMu P) = uninit (pCB P) ++ uninit (bytesMu P)) by (symmetry; apply zrep_app; lia).
  apply wp_bind, (sub_mid _ (uninit (pCB P)) (uninit (bytesMu P)) []);
    [rewrite app_nil_r; exact EU|rewrite zlen_uninit; lia|rewrite zlen_uninit; lia|].
  apply wp_bind; eapply wp_mono; [apply (key_decode_wp P V); [rewrite zlen_uninit; lia|apply zlen_ztab; lia|apply (ztab_mod_ok C V)]|].
  intros mu Emu. cbv beta in Emu. fold (Decrypt P SK CT) in Emu. subst mu. set (mu := Decrypt P SK CT).
  assert (Lmu : zlen mu = bytesMu P) by (unfold mu, Decrypt, decode_spec; rewrite zlen_regroup; lia).
  assert (Bmu : bytes_ok mu) by (apply (regroup_range _ 8); lia).
  apply wp_bind, (put_mid _ (uninit (pCB P)) (uninit (bytesMu P)) []);
    [rewrite app_nil_r; exact EU|rewrite zlen_uninit; lia|rewrite zlen_uninit; lia|]. rewrite app_nil_r.
  (* 199-200 *)
  apply wp_bind, wp_memcpy; [lia|lia|lia|rewrite zlen_app, zlen_uninit; lia|lia|].
  replace (sk + (pCB P + 16 + pD P * pN P) + 16 * pN P) with (sk + (pCB P + 16 + pD P * pN P + 16 * pN P)) by lia.
  rewrite Ph. fold (sk_pkh P SK). set (pkh := sk_pkh P SK).
  assert (Lpkh : zlen pkh = pCB P) by exact Lh. assert (Bpkh : bytes_ok pkh) by exact Bh.
  change (uninit (pCB P) ++ mu) with ([] ++ uninit (pCB P) ++ mu).
  rewrite (zsplice_mid _ (uninit (pCB P))) by (rewrite ?zlen_uninit; try reflexivity; lia). cbn [app].
  apply wp_bind, (shake_to_mid C V _ [] (uninit (2 * pCB P)) []);
    [now rewrite app_nil_r|reflexivity|rewrite zlen_uninit; lia|apply inrange_app; auto|rewrite zlen_app; lia|].
  rewrite app_nil_r; cbn [app]. replace (pCB P + pCB P) with (2 * pCB P) by lia.
  set (G2 := Hash P (pkh ++ mu) (2 * pCB P)).
  assert (LG2 : zlen G2 = 2 * pCB P) by (apply (zlen_Hash C V); lia).
  assert (BG2 : bytes_ok G2) by apply (Hash_ok C V).
  set (seedSE := firstn (Z.to_nat (pCB P)) G2). set (kk := skipn (Z.to_nat (pCB P)) G2).
  assert (EG2 : G2 = seedSE ++ kk) by (symmetry; apply firstn_skipn).
  assert (Lse : zlen seedSE = pCB P) by (unfold seedSE, zlen in *; rewrite firstn_length; lia).
  assert (Lkk : zlen kk = pCB P) by (unfold kk, zlen in *; rewrite skipn_length; lia).
  assert (Bse : bytes_ok seedSE) by (apply inrange_firstn; exact BG2).
  assert (Bkk : bytes_ok kk) by (apply inrange_skipn; exact BG2).
  (* 203-209 *)
  apply wp_bind, wp_wr; [rewrite zlen_uninit; lia|].
  set (U1 := uninit (pCB P)).
  assert (LU1 : zlen U1 = pCB P) by (apply zlen_uninit; lia).
  replace (zset (uninit (1 + pCB P)) 0 150) with ([150] ++ U1) by (unfold U1; rewrite uninit_cons by lia; reflexivity).
  apply wp_bind, (memcpy_mid _ [150] U1 [] _ [] seedSE kk); [now rewrite app_nil_r|exact EG2|reflexivity|reflexivity|lia|lia|].
  rewrite app_nil_r. cbn [app].
  apply (hash_words_wp C V _ _ (spLen P)); [lia|apply zlen_zrep; lia|lia| |rewrite zlen_cons; lia|lia|].
  { constructor; [lia|exact Bse]. }
  set (r := Hash P (150 :: seedSE) (2 * spLen P)).
  assert (Br : bytes_ok r) by apply (Hash_ok C V).
  replace (16 * pN P) with (2 * NN P) by lia.
  replace (hwords r 0 (spLen P)) with (hwords r 0 (NN P) ++ hwords r (NN P) (NN P) ++ hwords r (2 * NN P) 64).
  2:{ replace (spLen P) with (NN P + (NN P + 64)) by lia. rewrite !hwords_split by lia.
      replace (0 + NN P + NN P) with (2 * NN P) by lia. reflexivity. }
  (* 209-211 *)
  apply wp_bind, (sample_mid C V _ [] (hwords r 0 (NN P)) (hwords r (NN P) (NN P) ++ hwords r (2 * NN P) 64));
    [reflexivity|reflexivity|rewrite zlen_hwords; lia|apply hwords_ok; exact Br|]. cbn [app]. rewrite sample_hwords.
  set (S' := SampleMatrix P r 0 (NN P)). assert (LS' : zlen S' = NN P) by (apply zlen_ztab; lia).
  apply wp_bind, (sample_mid C V _ (map w16 S') (hwords r (NN P) (NN P)) (hwords r (2 * NN P) 64));
    [reflexivity|rewrite zlen_map; lia|rewrite zlen_hwords; lia|apply hwords_ok; exact Br|]. rewrite sample_hwords.
  set (E' := SampleMatrix P r (NN P) (NN P)). assert (LE' : zlen E' = NN P) by (apply zlen_ztab; lia).
  apply wp_bind, (sub_mid _ [] (map w16 S') (map w16 E' ++ hwords r (2 * NN P) 64)); [reflexivity|reflexivity|rewrite zlen_map; lia|].
  apply wp_bind, (sub_mid _ (map w16 S') (map w16 E') (hwords r (2 * NN P) 64)); [reflexivity|rewrite zlen_map; lia|rewrite zlen_map; lia|].
  apply wp_bind, wp_sub; [lia|lia|lia|]. rewrite PA. fold (sk_seedA P SK). set (seedA := sk_seedA P SK).
  apply wp_bind; eapply wp_mono; [apply (sa_left_wp C V); [exact Hbo|]|].
  { unfold mat_args. rewrite !zlen_map, zlen_zrep, LS', LE' by lia. repeat split; try lia; try apply w16_map_ok; [exact LA|exact BA]. }
  intros [[Bp e'] sp] ((EBp & Le') & Esprm).
  apply wp_bind, (put_mid _ (map w16 S') (map w16 E') (hwords r (2 * NN P) 64)); [reflexivity|rewrite zlen_map; lia|rewrite zlen_map; lia|].
  assert (LBp : zlen Bp = pN P * 8) by (rewrite EBp; apply zlen_SA; lia).
  assert (EBB : map (fun x => x mod 2 ^ pD P) Bp = SA_plus_E (2 ^ pD P) (pN P) (A_spec g (pN P) seedA) S' E').
  { rewrite EBp. apply SA_w16. lia. }
  set (BB := SA_plus_E (2 ^ pD P) (pN P) (A_spec g (pN P) seedA) S' E') in *.
  assert (LBB : zlen BB = pN P * 8) by (apply zlen_SA; lia).
  (* 214-216 *)
  apply wp_bind, (sample_mid C V _ (map w16 S' ++ e') (hwords r (2 * NN P) 64) []);
    [now rewrite app_nil_r, <- app_assoc|rewrite zlen_app, zlen_map; lia|rewrite zlen_hwords; lia|apply hwords_ok; exact Br|].
  rewrite sample_hwords, app_nil_r, <- app_assoc.
  set (E'' := SampleMatrix P r (2 * NN P) 64). assert (LE'' : zlen E'' = 64) by (apply zlen_ztab; lia).
  apply wp_bind, wp_sub; [lia|lia|lia|].
  replace (pkBytes P - 16) with (pD P * pN P) by lia. replace (sk + pCB P + 16) with (sk + (pCB P + 16)) by lia. rewrite Pb.
  fold (sk_b P SK). set (b := sk_b P SK).
  apply wp_bind; eapply wp_mono; [apply (unpack_wp C V); [apply zlen_zrep; lia|exact Bb|symmetry; exact Lb]|].
  intros B ->. set (B := Unpack P (NN P) b).
  assert (LB : zlen B = pN P * 8) by (unfold B; rewrite zlen_Unpack; lia).
  apply wp_bind, (sub_mid _ [] (map w16 S') (e' ++ map w16 E'')); [reflexivity|reflexivity|rewrite zlen_map; lia|].
  apply wp_bind, (sub_mid _ (map w16 S' ++ e') (map w16 E'') []);
    [now rewrite app_nil_r, <- app_assoc|rewrite zlen_app, zlen_map; lia|rewrite zlen_map; lia|].
  apply wp_bind; eapply wp_mono; [apply (sb_plus_e_wp P V);
    [apply zlen_ztab; lia|apply (ztab_mod_ok C V)|exact LB|apply (Unpack_ok16 C V)|rewrite zlen_map; lia|apply w16_map_ok|rewrite zlen_map; lia|apply w16_map_ok]|].
  intros Vm ->. rewrite SB_w16 by lia. set (Vm := SB_E_spec (2 ^ pD P) (pN P) S' B E'').
  assert (LV : zlen Vm = 64) by (apply zlen_ztab; lia).
  (* 219-220 *)
  apply wp_bind, (sub_mid _ pkh mu []); [now rewrite app_nil_r|lia|lia|].
  apply wp_bind; eapply wp_mono; [apply (key_encode_wp P V); [apply zlen_zrep; lia|lia|exact Bmu]|]. intros Cm ->.
  apply wp_bind; eapply wp_mono; [apply (add_wp P V); [exact LV|apply (ztab_mod_ok C V)|apply (zlen_encode C)|apply (encode_ok C V)]|]. intros Cm ->.
  set (Cm := add_spec (2 ^ pD P) Vm (encode_spec (pD P) (pB P) mu)).
  assert (LC : zlen Cm = 64) by (apply zlen_ztab; lia).
  (* 223-227 *)
  assert (EF : uninit (ctBytes P + pCB P) = uninit (ctBytes P) ++ uninit (pCB P)) by (symmetry; apply zrep_app; lia).
  apply wp_bind, wp_memcpy; [lia|lia|lia|rewrite zlen_uninit; lia|lia|]. fold CT.
  rewrite EF. change (uninit (ctBytes P) ++ uninit (pCB P)) with ([] ++ uninit (ctBytes P) ++ uninit (pCB P)).
  rewrite (zsplice_mid _ (uninit (ctBytes P))) by (rewrite ?zlen_uninit; try reflexivity; lia). cbn [app].
  apply wp_bind; eapply wp_mono; [apply (mask_q_wp C V); [lia|rewrite EBp; apply SA_ok]|]. intros BBp ->. rewrite EBB.
  (* 232-235 *)
  apply wp_bind; eapply wp_mono; [apply verify_eq; [lia|lia|apply (map_mod_ok C V); exact RcB|apply (ztab_mod_ok C V)]|]. intros v1 Hv1.
  apply wp_bind; eapply wp_mono; [apply verify_eq; [lia|lia|apply (map_mod_ok C V); exact RcC|apply (ztab_mod_ok C V)]|]. intros v2 Hv2.
  apply wp_bind, (sub_mid _ CT (uninit (pCB P)) []); [now rewrite app_nil_r|lia|rewrite zlen_uninit; lia|].
  apply wp_bind, (sub_mid _ seedSE kk []); [now rewrite app_nil_r|lia|lia|].
  apply wp_bind, wp_sub; [lia|lia|lia|]. rewrite Ps. fold (sk_s P SK).
  assert (Hsel : (s8 (Z.lor v1 v2) = 0 /\ ct_B P CT ++ ct_C P CT = BB ++ Cm) \/ (s8 (Z.lor v1 v2) = -1 /\ ct_B P CT ++ ct_C P CT <> BB ++ Cm)).
  { destruct Hv1 as [(-> & E1)|(-> & E1)], Hv2 as [(-> & E2)|(-> & E2)]; [left; split; [reflexivity|congruence]|right; split; [reflexivity|]..];
      intros E; apply app_eq_len in E; try lia; destruct E; congruence. }
  set (kbar := if list_eq_dec Z.eq_dec (ct_B P CT ++ ct_C P CT) (BB ++ Cm) then kk else sk_s P SK).
  apply wp_bind; eapply wp_mono; [apply ct_select_wp; [exact Bkk|exact Bs|lia|rewrite zlen_uninit; lia|exact Lkk|exact Ls|destruct Hsel as [(-> & _)|(-> & _)]; auto]|].
  intros x Ex. assert (Ek : x = kbar).
  { rewrite Ex. unfold kbar. destruct Hsel as [(-> & E)|(-> & E)]; destruct (list_eq_dec _ _ _); try contradiction; reflexivity. }
  clear Ex; subst x.
  assert (Lkbar : zlen kbar = pCB P) by (unfold kbar; destruct (list_eq_dec _ _ _); [exact Lkk|exact Ls]).
  assert (Bkbar : bytes_ok kbar) by (unfold kbar; destruct (list_eq_dec _ _ _); [exact Bkk|exact Bs]).
  apply wp_bind, (put_mid _ CT (uninit (pCB P)) []); [now rewrite app_nil_r|lia|rewrite zlen_uninit; lia|]. rewrite app_nil_r.
  apply wp_bind; eapply wp_mono; [apply shake_to_left_wp; [lia|lia|lia|apply inrange_app; auto|rewrite zlen_app; lia]|]. intros (m3, f) (-> & HF).
  (* 238-246 *)
  apply wp_bind, (clear_words_mid _ _ [] Vm []); [now rewrite app_nil_r|reflexivity|lia|]. cbn [app].
  apply wp_bind, (clear_words_mid _ _ [] (map w16 S') (e' ++ map w16 E'')); [reflexivity|reflexivity|rewrite zlen_map; lia|]. cbn [app].
  apply wp_bind, (clear_words_mid _ _ [] Sw []); [now rewrite app_nil_r|reflexivity|lia|]. cbn [app].
  apply wp_bind, (clear_words_mid _ _ (zrep (NN P) 0) e' (map w16 E'')); [reflexivity|rewrite zlen_zrep; lia|lia|].
  apply wp_bind, (clear_words_mid _ _ (zrep (NN P) 0 ++ zrep (NN P) 0) (map w16 E'') []);
    [now rewrite app_nil_r, <- app_assoc|rewrite zlen_app, zlen_zrep; lia|rewrite zlen_map; lia|]. rewrite app_nil_r.
  apply wp_bind, (clear_mid _ pkh mu []); [now rewrite app_nil_r|lia|lia|]. rewrite app_nil_r.
  apply wp_bind, (clear_mid _ [] G2 []); [now rewrite app_nil_r|reflexivity|lia|]. cbn [app].
  apply wp_bind, (clear_mid _ CT kbar []); [now rewrite app_nil_r|lia|lia|]. rewrite app_nil_r.
  apply wp_bind, (clear_mid _ [] (150 :: seedSE) []); [now rewrite app_nil_r|reflexivity|rewrite zlen_cons; lia|].
  apply wp_ret.
  assert (EE : Encrypt P g seedA b pkh mu = (BB, Cm, kk)).
  { unfold Encrypt. fold G2. fold seedSE kk.
    replace (2 * (16 * pN P + 64)) with (2 * spLen P) by lia. fold r.
    replace (8 * pN P) with (NN P) by lia. replace (16 * pN P) with (2 * NN P) by lia. reflexivity. }
  split; [reflexivity|]. unfold dec_key, Decaps. fold mu seedA b pkh. rewrite EE. fold kbar. split; [reflexivity|]. split; [|exact HF].
  rewrite Esprm. unfold Sprime. fold G2. fold seedSE.
  replace (2 * (16 * pN P + 64)) with (2 * spLen P) by lia. fold r. replace (8 * pN P) with (NN P) by lia. reflexivity.
Qed.
End Kem.
