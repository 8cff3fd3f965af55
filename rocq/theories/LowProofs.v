(** Traces: what an observer of branches, loop bounds and array indices sees does not depend
    on the contents of the arrays.  [low m1 m2 R]: if both computations succeed, their traces
    are equal and their results related by R. *)
From Verif Require Import CSem Params Util Fips202 Fips202x4 Aes AesSpec Macrify Kem.

Definition any {A B} (a : A) (b : B) : Prop := True.
Lemma samelen_refl l : samelen l l. Proof. reflexivity. Qed.
Lemma samelen_zset l1 l2 i j v w : samelen l1 l2 -> samelen (zset l1 i v) (zset l2 j w).
Proof. unfold samelen; rewrite !zlen_zset; auto. Qed.
Lemma samelen_bytes en l1 l2 : samelen l1 l2 -> samelen (bytes_of_words en l1) (bytes_of_words en l2).
Proof. unfold samelen; rewrite !zlen_bytes; lia. Qed.
Lemma samelen_words en l1 l2 : samelen l1 l2 -> samelen (words_of_bytes en l1) (words_of_bytes en l2).
Proof. unfold samelen; rewrite !zlen_words; intros ->; reflexivity. Qed.
#[export] Hint Resolve samelen_refl samelen_bytes samelen_words : low.
Lemma low_fail_l {A B} e (m : res B) (R : A -> B -> Prop) : low (Err e) m R.
Proof. intros a1 t1 a2 t2 E; discriminate E. Qed.
Lemma low_fail_r {A B} e (m : res A) (R : A -> B -> Prop) : low m (Err e) R.
Proof. intros a1 t1 a2 t2 _ E; discriminate E. Qed.

(** One step of a proof: [head] finds the relation for the first command. *)
Ltac lsolve := solve [auto with low | exact I | unfold any; auto | lia | reflexivity | assumption].
Ltac head_base :=
  lazymatch goal with
  | |- low (rd _ _) _ _ => apply low_rd
  | |- low (wr _ _ _) _ _ => apply low_wr; lsolve
  | |- low (i32 _) _ _ => apply low_i32
  | |- low (shl32 _ _) _ _ => apply low_shl32
  | |- low (shr32 _ _) _ _ => apply low_shr32
  | |- low (shl64 _ _) _ _ => apply low_shl64
  | |- low (shr64 _ _) _ _ => apply low_shr64
  | |- low (sub _ _ _) _ _ => apply low_sub
  | |- low (put _ _ _) _ _ => apply low_put; lsolve
  | |- low (memset _ _ _ _) _ _ => apply low_memset; lsolve
  | |- low (memcpy _ _ _ _ _) _ _ => apply low_memcpy; lsolve
  | |- low (assert_ _) _ _ => apply low_assert
  | |- low (emit _) _ _ => apply low_emit
  end.
Ltac head_more := fail.
Ltac head := first [head_base | head_more].
Ltac unpair :=
  repeat match goal with
  | |- low (match ?x with _ => _ end) _ _ => is_var x; destruct x
  | |- low _ (match ?x with _ => _ end) _ => is_var x; destruct x
  end.
Ltac hyps := repeat match goal with
  | H : _ /\ _ |- _ => destruct H
  | H : ?x = ?y |- _ => is_var x; is_var y; subst x
  | H : True |- _ => clear H
  | H : any _ _ |- _ => clear H
  | H : (fun _ _ => _) _ _ |- _ => progress cbv beta in H
  end.
Ltac lowstep :=
  first
  [ match goal with |- low (bind _ _) (bind _ _) _ => eapply low_bind; [solve [head] | intros; unpair; hyps; cbv beta iota zeta] end
  | match goal with |- low (ret _) (ret _) _ => apply low_ret end
  | eapply low_mono; [solve [head] | intros; cbv beta in *; unpair; hyps] ].
Ltac lows := repeat lowstep; try lsolve; repeat split; try lsolve.

(* ------------------------------------------------------------------ *)
(** ** util.c and noise.c *)
(** State of the pack and unpack loops: everything but the data is public. *)
Definition pk_rel (s1 s2 : pack_st) : Prop :=
  let '(o1, j1, w1, b1, c1) := s1 in let '(o2, j2, w2, b2, c2) := s2 in
  samelen o1 o2 /\ j1 = j2 /\ b1 = b2 /\ c1 = c2.
Definition pko_rel (s1 s2 : list Z * Z * Z * Z * Z) : Prop :=
  let '(o1, i1, j1, w1, b1) := s1 in let '(o2, i2, j2, w2, b2) := s2 in
  samelen o1 o2 /\ i1 = i2 /\ j1 = j2 /\ b1 = b2.
Lemma low_nbits (c : bool) x y : low (branch c (ret x) (ret y)) (branch c (ret x) (ret y)) (fun a b : Z => a = b).
Proof. apply low_refl; auto. Qed.
Lemma low_pack_inner inp1 inp2 inlen lsb i s1 s2 : pk_rel s1 s2 ->
  low (pack_inner inp1 inlen lsb i s1) (pack_inner inp2 inlen lsb i s2)
      (fun r1 r2 => pk_rel (fst r1) (fst r2) /\ snd r1 = snd r2).
Proof.
  destruct s1 as [[[[o1 j1] w1] b1] c1], s2 as [[[[o2 j2] w2] b2] c2]. intros (Ho & -> & -> & ->). unfold pack_inner.
  apply low_branch; [reflexivity| |]; intros Hc; [|apply low_ret; repeat split; auto].
  eapply low_bind; [apply low_nbits|]. intros nb nb' ->. repeat lowstep.
  apply low_branch; [reflexivity| |]; intros Hd; [|apply low_ret; repeat split; auto].
  apply low_branch; [reflexivity| |]; intros He; [|apply low_ret; repeat split; auto].
  lows.
Qed.
Lemma low_unpack_inner inp1 inp2 inlen lsb i s1 s2 : pk_rel s1 s2 ->
  low (unpack_inner inp1 inlen lsb i s1) (unpack_inner inp2 inlen lsb i s2)
      (fun r1 r2 => pk_rel (fst r1) (fst r2) /\ snd r1 = snd r2).
Proof.
  destruct s1 as [[[[o1 j1] w1] b1] c1], s2 as [[[[o2 j2] w2] b2] c2]. intros (Ho & -> & -> & ->). unfold unpack_inner.
  apply low_branch; [reflexivity| |]; intros Hc; [|apply low_ret; repeat split; auto].
  eapply low_bind; [apply low_nbits|]. intros nb nb' ->. repeat lowstep.
  apply low_branch; [reflexivity| |]; intros Hd; [|apply low_ret; repeat split; auto].
  apply low_branch; [reflexivity| |]; intros He; [|apply low_ret; repeat split; auto].
  lows.
Qed.
Lemma low_pack_outer outlen inp1 inp2 inlen lsb s1 s2 : pko_rel s1 s2 ->
  low (pack_outer outlen inp1 inlen lsb s1) (pack_outer outlen inp2 inlen lsb s2)
      (fun r1 r2 => pko_rel (fst r1) (fst r2) /\ snd r1 = snd r2).
Proof.
  destruct s1 as [[[[o1 i1] j1] w1] b1], s2 as [[[[o2 i2] j2] w2] b2]. intros (Ho & -> & -> & ->). unfold pack_outer.
  apply low_branch; [reflexivity| |]; intros Hc; [|apply low_ret; repeat split; auto].
  eapply low_bind; [apply (low_loop pk_rel)|].
  - repeat split; auto.
  - intros. apply low_pack_inner; assumption.
  - intros [[[[o3 j3] w3] b3] c3] [[[[o4 j4] w4] b4] c4] (H1 & -> & -> & ->).
    apply low_branch; [reflexivity| |]; intros _; apply low_ret; repeat split; auto.
Qed.
Lemma low_unpack_outer outlen inp1 inp2 inlen lsb s1 s2 : pko_rel s1 s2 ->
  low (unpack_outer outlen inp1 inlen lsb s1) (unpack_outer outlen inp2 inlen lsb s2)
      (fun r1 r2 => pko_rel (fst r1) (fst r2) /\ snd r1 = snd r2).
Proof.
  destruct s1 as [[[[o1 i1] j1] w1] b1], s2 as [[[[o2 i2] j2] w2] b2]. intros (Ho & -> & -> & ->). unfold unpack_outer.
  apply low_branch; [reflexivity| |]; intros Hc; [|apply low_ret; repeat split; auto].
  eapply low_bind; [apply (low_loop pk_rel)|].
  - repeat split; auto.
  - intros. apply low_unpack_inner; assumption.
  - intros [[[[o3 j3] w3] b3] c3] [[[[o4 j4] w4] b4] c4] (H1 & -> & -> & ->).
    apply low_branch; [reflexivity| |]; intros _; apply low_ret; repeat split; auto.
Qed.
Lemma low_pack o1 o2 outlen inp1 inp2 inlen lsb : samelen o1 o2 ->
  low (frodo_pack o1 outlen inp1 inlen lsb) (frodo_pack o2 outlen inp2 inlen lsb) samelen.
Proof.
  intros H. unfold frodo_pack. lowstep. eapply low_bind; [apply (low_loop pko_rel)|].
  - repeat split; auto.
  - intros. apply low_pack_outer; assumption.
  - intros [[[[o3 j3] w3] b3] c3] [[[[o4 j4] w4] b4] c4] (H1 & _). apply low_ret; exact H1.
Qed.
Lemma low_unpack o1 o2 outlen inp1 inp2 inlen lsb : samelen o1 o2 ->
  low (frodo_unpack o1 outlen inp1 inlen lsb) (frodo_unpack o2 outlen inp2 inlen lsb) samelen.
Proof.
  intros H. unfold frodo_unpack. lowstep. eapply low_bind; [apply (low_loop pko_rel)|].
  - repeat split; auto.
  - intros. apply low_unpack_outer; assumption.
  - intros [[[[o3 j3] w3] b3] c3] [[[[o4 j4] w4] b4] c4] (H1 & _). apply low_ret; exact H1.
Qed.
Lemma low_ct_verify a1 a2 b1 b2 len : low (ct_verify a1 b1 len) (ct_verify a2 b2 len) any.
Proof.
  unfold ct_verify. eapply low_bind; [apply (low_for any); [exact I|]; intros; lows|]. intros. lows.
Qed.
Lemma low_ct_select r1 r2 a1 a2 b1 b2 len s1 s2 : samelen r1 r2 ->
  low (ct_select r1 a1 b1 len s1) (ct_select r2 a2 b2 len s2) samelen.
Proof. intros H. unfold ct_select. apply low_for; [exact H|]. intros. lows. Qed.
Lemma low_clear_bytes l1 l2 n : samelen l1 l2 -> low (clear_bytes l1 n) (clear_bytes l2 n) samelen.
Proof. intros H. unfold clear_bytes. apply low_for; [exact H|]. intros. lows. Qed.
Lemma low_sample_n cdf s1 s2 n : samelen s1 s2 -> low (frodo_sample_n cdf s1 n) (frodo_sample_n cdf s2 n) samelen.
Proof.
  intros H. unfold frodo_sample_n. apply low_for; [exact H|]. intros i l1 l2 Hl. repeat lowstep.
  eapply low_bind; [apply (low_for any); [exact I|]; intros; lows|]. intros. lows.
Qed.

(* ------------------------------------------------------------------ *)
(** ** fips202.c *)
Lemma low_load64 m1 m2 off : low (load64 m1 off) (load64 m2 off) any.
Proof. unfold load64. apply (low_for any); [exact I|]. intros. lows. Qed.
Lemma low_store64 h1 h2 off u1 u2 : samelen h1 h2 -> low (store64 h1 off u1) (store64 h2 off u2) samelen.
Proof.
  intros H. unfold store64. eapply low_bind.
  - apply (low_for (fun a b : list Z * Z => samelen (fst a) (fst b))); [exact H|]. intros i [a x] [b y] Hab. cbn [fst] in Hab. lows.
  - intros [a x] [b y] Hab. apply low_ret. exact Hab.
Qed.
Lemma low_permute s1 s2 : samelen s1 s2 -> low (KeccakF1600_StatePermute s1) (KeccakF1600_StatePermute s2) samelen.
Proof.
  intros H. unfold KeccakF1600_StatePermute. repeat lowstep.
  eapply low_bind; [apply (low_for_step any); [exact I|]; intros; lows|].
  intros x y _. unpair. lows.
Qed.

Ltac head_more ::=
  lazymatch goal with
  | |- low (load64 _ _) _ _ => apply low_load64
  | |- low (store64 _ _ _) _ _ => apply low_store64; lsolve
  | |- low (KeccakF1600_StatePermute _) _ _ => apply low_permute; lsolve
  end.
(** State of the absorb loop: the remaining length and the offset are public. *)
Definition ab_rel (a b : list Z * Z * Z) : Prop :=
  samelen (fst (fst a)) (fst (fst b)) /\ snd (fst a) = snd (fst b) /\ snd a = snd b.
Lemma low_absorb s1 s2 r m1 m2 mlen p : samelen s1 s2 ->
  low (keccak_absorb s1 r m1 mlen p) (keccak_absorb s2 r m2 mlen p) samelen.
Proof.
  intros H. unfold keccak_absorb. eapply low_bind; [apply (low_loop ab_rel)|].
  - repeat split; auto.
  - intros [[x1 n1] o1] [[x2 n2] o2] (Hx & Hn & Ho). cbn [fst snd] in Hx, Hn, Ho. subst n2 o2.
    apply low_branch; [reflexivity| |]; intros _; [|apply low_ret; repeat split; auto].
    eapply low_bind; [apply (low_for samelen); [exact Hx|]; intros; lows|]. intros. lows.
  - intros [[x1 n1] o1] [[x2 n2] o2] (Hx & Hn & Ho). cbn [fst snd] in Hx, Hn, Ho. subst n2 o2. cbv zeta.
    eapply low_bind; [apply (low_for samelen); [reflexivity|]; intros; lows|]. intros t1 t2 Ht.
    eapply low_bind; [apply (low_for samelen); [exact Ht|]; intros; lows|]. intros u1 u2 Hu.
    repeat lowstep. apply (low_for samelen); [exact Hx|]. intros; lows.
Qed.
(** State of the squeeze loop. *)
Definition sq_rel (a b : list Z * list Z * Z * Z) : Prop :=
  let '(h1, s1, n1, o1) := a in let '(h2, s2, n2, o2) := b in
  samelen h1 h2 /\ samelen s1 s2 /\ n1 = n2 /\ o1 = o2.
Definition len2 (a b : list Z * list Z) : Prop := samelen (fst a) (fst b) /\ samelen (snd a) (snd b).
Lemma low_squeezeblocks h1 h2 n s1 s2 r : samelen h1 h2 -> samelen s1 s2 ->
  low (keccak_squeezeblocks h1 n s1 r) (keccak_squeezeblocks h2 n s2 r) len2.
Proof.
  intros Hh Hs. unfold keccak_squeezeblocks. eapply low_bind; [apply (low_loop sq_rel)|].
  - repeat split; auto.
  - intros [[[x1 y1] n1] o1] [[[x2 y2] n2] o2] (Hx & Hy & -> & ->).
    apply low_branch; [reflexivity| |]; intros _; [|apply low_ret; repeat split; auto].
    lowstep. eapply low_bind; [apply (low_for samelen); [exact Hx|]; intros; lows|]. intros. lows.
  - intros [[[x1 y1] n1] o1] [[[x2 y2] n2] o2] (Hx & Hy & _). apply low_ret. split; auto.
Qed.
Lemma low_shake r o1 o2 n i1 i2 m : samelen o1 o2 -> low (shake r o1 n i1 m) (shake r o2 n i2 m) samelen.
Proof.
  intros H. unfold shake. eapply low_bind; [apply low_refl with (R := samelen); intros; reflexivity|]. intros s1 s2 Hs.
  eapply low_bind; [apply low_absorb; exact Hs|]. intros s3 s4 Hs2.
  eapply low_bind; [apply low_squeezeblocks; assumption|]. intros [x1 y1] [x2 y2] (Hx & Hy). cbn [fst snd] in Hx, Hy. cbv zeta.
  apply low_branch; [reflexivity| |]; intros _; [|apply low_ret; exact Hx].
  eapply low_bind; [apply low_squeezeblocks; [reflexivity|assumption]|]. intros [t1 z1] [t2 z2] (Ht & _).
  apply (low_for samelen); [exact Hx|]. intros; lows.
Qed.

(* ------------------------------------------------------------------ *)
(** ** The four-way SHAKE *)
Lemma low_load256 s1 s2 i : low (load256 s1 i) (load256 s2 i) any.
Proof. unfold load256. lows. Qed.
Lemma low_store256 s1 s2 i v1 v2 : samelen s1 s2 -> low (store256 s1 i v1) (store256 s2 i v2) samelen.
Proof. intros H. destruct v1 as [[[a1 b1] c1] d1], v2 as [[[a2 b2] c2] d2]. unfold store256. lows. Qed.
Ltac head_more ::=
  lazymatch goal with
  | |- low (load64 _ _) _ _ => apply low_load64
  | |- low (store64 _ _ _) _ _ => apply low_store64; lsolve
  | |- low (KeccakF1600_StatePermute _) _ _ => apply low_permute; lsolve
  | |- low (load256 _ _) _ _ => apply low_load256
  | |- low (store256 _ _ _) _ _ => apply low_store256; lsolve
  end.
Lemma low_rounds24 a b : low (rounds24 a) (rounds24 b) any.
Proof.
  unfold rounds24. repeat match goal with
  | |- low (bind (rd _ _) _) (bind (rd _ _) _) _ => eapply low_bind; [apply low_rd|intros ? ? _]
  | |- low (let '(_, _) := ?x in _) _ _ => destruct x
  | |- low _ (let '(_, _) := ?x in _) _ => destruct x
  end. apply low_ret. exact I.
Qed.
Lemma low_permute4x al s1 s2 : samelen s1 s2 ->
  low (KeccakP1600times4_PermuteAll_24rounds al s1) (KeccakP1600times4_PermuteAll_24rounds al s2) samelen.
Proof.
  intros H. unfold KeccakP1600times4_PermuteAll_24rounds.
  eapply low_bind; [apply low_refl with (R := any); intros; exact I|]. intros _ _ _.
  repeat lowstep. eapply low_bind; [apply low_rounds24|]. intros x y _. unpair. lows.
Qed.
Definition len4 (a b : list Z * list Z * list Z * list Z) : Prop :=
  let '(a0, a1, a2, a3) := a in let '(b0, b1, b2, b3) := b in
  samelen a0 b0 /\ samelen a1 b1 /\ samelen a2 b2 /\ samelen a3 b3.
Lemma low_xor_in s1 s2 j m1 m2 off : samelen s1 s2 -> low (xor_in s1 j m1 off) (xor_in s2 j m2 off) samelen.
Proof. intros H. unfold xor_in. lows. Qed.
Ltac head_more ::=
  lazymatch goal with
  | |- low (load64 _ _) _ _ => apply low_load64
  | |- low (store64 _ _ _) _ _ => apply low_store64; lsolve
  | |- low (KeccakF1600_StatePermute _) _ _ => apply low_permute; lsolve
  | |- low (load256 _ _) _ _ => apply low_load256
  | |- low (store256 _ _ _) _ _ => apply low_store256; lsolve
  | |- low (KeccakP1600times4_PermuteAll_24rounds _ _) _ _ => apply low_permute4x; lsolve
  | |- low (xor_in _ _ _ _) _ _ => apply low_xor_in; lsolve
  end.
Lemma low_absorb4x al s1 s2 r a0 a1 a2 a3 b0 b1 b2 b3 mlen p : samelen s1 s2 ->
  low (keccak_absorb4x al s1 r a0 a1 a2 a3 mlen p) (keccak_absorb4x al s2 r b0 b1 b2 b3 mlen p) samelen.
Proof.
  intros H. unfold keccak_absorb4x. cbv zeta. eapply low_bind; [apply (low_loop ab_rel)|].
  - repeat split; auto.
  - intros [[x1 n1] o1] [[x2 n2] o2] (Hx & Hn & Ho). cbn [fst snd] in Hx, Hn, Ho. subst n2 o2.
    apply low_branch; [reflexivity| |]; intros _; [|apply low_ret; repeat split; auto].
    eapply low_bind; [apply (low_for samelen); [exact Hx|]; intros; lows|]. intros. lows.
  - intros [[x1 n1] o1] [[x2 n2] o2] (Hx & Hn & Ho). cbn [fst snd] in Hx, Hn, Ho. subst n2 o2. cbv zeta.
    eapply low_bind; [apply (low_for len4); [repeat split; reflexivity|]; intros ? [[[? ?] ?] ?] [[[? ?] ?] ?] (? & ? & ? & ?); lows|].
    intros [[[t0 t1] t2] t3] [[[u0 u1] u2] u3] (H0 & H1 & H2 & H3).
    eapply low_bind; [apply (low_for len4); [repeat split; assumption|]; intros ? [[[? ?] ?] ?] [[[? ?] ?] ?] (? & ? & ? & ?); lows|].
    clear t0 t1 t2 t3 u0 u1 u2 u3 H0 H1 H2 H3.
    intros [[[t0 t1] t2] t3] [[[u0 u1] u2] u3] (H0 & H1 & H2 & H3).
    repeat lowstep. apply (low_for samelen); [exact Hx|]. intros; lows.
Qed.
Definition sq4_rel (a b : (list Z * list Z * list Z * list Z) * list Z * Z * Z) : Prop :=
  let '(h1, s1, n1, o1) := a in let '(h2, s2, n2, o2) := b in
  len4 h1 h2 /\ samelen s1 s2 /\ n1 = n2 /\ o1 = o2.
Lemma low_squeezeblocks4x al h1 h2 n s1 s2 r : len4 h1 h2 -> samelen s1 s2 ->
  low (keccak_squeezeblocks4x al h1 n s1 r) (keccak_squeezeblocks4x al h2 n s2 r)
      (fun a b => len4 (fst a) (fst b) /\ samelen (snd a) (snd b)).
Proof.
  intros Hh Hs. unfold keccak_squeezeblocks4x. eapply low_bind; [apply (low_loop sq4_rel)|].
  - repeat split; auto.
  - intros [[[x1 y1] n1] o1] [[[x2 y2] n2] o2] (Hx & Hy & -> & ->).
    apply low_branch; [reflexivity| |]; intros _; [|apply low_ret; repeat split; auto].
    lowstep. eapply low_bind.
    + apply (low_for len4); [exact Hx|]. intros ? [[[? ?] ?] ?] [[[? ?] ?] ?] (? & ? & ? & ?); lows.
    + intros. lows.
  - intros [[[x1 y1] n1] o1] [[[x2 y2] n2] o2] (Hx & Hy & _). apply low_ret. split; auto.
Qed.
Lemma low_shake128_4x al o1 o2 n a0 a1 a2 a3 b0 b1 b2 b3 m : len4 o1 o2 ->
  low (shake128_4x al o1 n a0 a1 a2 a3 m) (shake128_4x al o2 n b0 b1 b2 b3 m) len4.
Proof.
  intros H. unfold shake128_4x, shake128_absorb4x. cbv zeta. eapply low_bind.
  { eapply low_bind; [apply (low_for samelen); [reflexivity|]; intros; lows|]. intros; apply low_absorb4x; assumption. }
  intros s1 s2 Hs. eapply low_bind; [apply low_squeezeblocks4x; assumption|].
  intros [x1 y1] [x2 y2] (Hx & Hy). cbn [fst snd] in Hx, Hy.
  apply low_branch; [reflexivity| |]; intros _; [|apply low_ret; exact Hx].
  eapply low_bind; [apply low_squeezeblocks4x; [repeat split; reflexivity|assumption]|].
  intros [[[[t0 t1] t2] t3] z1] [[[[u0 u1] u2] u3] z2] (Ht & _).
  apply (low_for len4); [exact Hx|]. intros ? [[[? ?] ?] ?] [[[? ?] ?] ?] (? & ? & ? & ?); lows.
Qed.

(* ------------------------------------------------------------------ *)
(** ** AES with the AES instructions: no table lookups *)
Lemma low_loadu128 l1 l2 o : low (loadu128 l1 o) (loadu128 l2 o) any.
Proof.
  unfold loadu128. lowstep. destruct (all_init a); [|apply low_fail_l]. destruct (all_init b); [|apply low_fail_r]. lows.
Qed.
Lemma zlen_mm_xor a b : zlen (mm_xor a b) = 16. Proof. apply zlen_ztab; lia. Qed.
Lemma low_storeu128 l1 l2 o x1 x2 : samelen l1 l2 -> samelen x1 x2 -> low (storeu128 l1 o x1) (storeu128 l2 o x2) samelen.
Proof. intros; unfold storeu128. lows. Qed.
Lemma low_load128 al l1 l2 i : low (load128 al l1 i) (load128 al l2 i) any.
Proof. unfold load128. destruct al; [apply low_loadu128|apply low_fail_l]. Qed.
Lemma low_store128 al l1 l2 i x1 x2 : samelen l1 l2 -> samelen x1 x2 -> low (store128 al l1 i x1) (store128 al l2 i x2) samelen.
Proof. intros. unfold store128. destruct al; [apply low_storeu128; auto|apply low_fail_l]. Qed.
Lemma low_loadu128_len l1 l2 o : low (loadu128 l1 o) (loadu128 l2 o) samelen.
Proof.
  unfold loadu128. lowstep. destruct (all_init a); [|apply low_fail_l]. destruct (all_init b); [|apply low_fail_r]. lows.
Qed.
Lemma low_ni_step al s1 s2 i rc : samelen s1 s2 -> low (ni_step al s1 i rc) (ni_step al s2 i rc) samelen.
Proof.
  intros H. unfold ni_step. eapply low_bind; [apply low_load128|intros ? ? _]. eapply low_bind; [apply low_load128|intros ? ? _].
  apply low_store128; [exact H|]. unfold key_expand, samelen. cbv zeta. rewrite !zlen_mm_xor. reflexivity.
Qed.
Lemma low_load_schedule_ni al k1 k2 s1 s2 : samelen s1 s2 ->
  low (aes128_load_schedule_ni al k1 s1) (aes128_load_schedule_ni al k2 s2) samelen.
Proof.
  intros H. unfold aes128_load_schedule_ni. eapply low_bind; [apply low_loadu128_len|intros a b Hab].
  eapply low_bind; [apply low_store128; assumption|]. intros.
  repeat (eapply low_bind; [apply low_ni_step; eassumption|]; intros). apply low_ni_step; assumption.
Qed.
Lemma low_enc_ni al Nr p1 p2 s1 s2 c1 c2 : samelen c1 c2 ->
  low (aes_enc_ni al Nr p1 s1 c1) (aes_enc_ni al Nr p2 s2 c2) samelen.
Proof.
  intros H. unfold aes_enc_ni. eapply low_bind; [apply low_loadu128|intros ? ? _]. eapply low_bind; [apply low_load128|intros ? ? _]. cbv zeta.
  eapply low_bind; [apply (low_for any); [exact I|]; intros; eapply low_bind; [apply low_load128|intros; apply low_ret; exact I]|].
  intros ? ? _. eapply low_bind; [apply low_load128|intros ? ? _]. apply low_storeu128; [exact H|].
  unfold mm_aesenclast, samelen. rewrite !zlen_mm_xor. reflexivity.
Qed.
(** ** OpenSSL: only the accesses made by the code of the repository are in the trace *)
Lemma low_evp_init Nk Nr k1 k2 s1 s2 : samelen s1 s2 -> low (evp_init Nk Nr k1 s1) (evp_init Nk Nr k2 s2) samelen.
Proof.
  intros H. unfold evp_init. lowstep. destruct (all_init a); [|apply low_fail_l]. destruct (all_init b); [|apply low_fail_r].
  cbn [negb]. apply low_put; [exact H|]. unfold samelen, ztab, zlen. rewrite !map_length. reflexivity.
Qed.
Lemma zlen_Cipher_spec Nr w x : zlen (Cipher_spec Nr w x) = 16.
Proof.
  unfold Cipher_spec, AddRoundKey_spec, xorlist. cbv zeta. rewrite zlen_ztab by apply zlen_nonneg.
  unfold ShiftRows_spec. apply zlen_ztab. lia.
Qed.
Lemma low_evp_block Nr p1 p2 s1 s2 c1 c2 : samelen c1 c2 ->
  low (evp_block Nr p1 s1 c1) (evp_block Nr p2 s2 c2) samelen.
Proof.
  intros H. unfold evp_block. lowstep. destruct (all_init a); [|apply low_fail_l]. destruct (all_init b); [|apply low_fail_r].
  cbn [negb]. lowstep. match goal with |- low (if negb (all_init ?u) then _ else _) (if negb (all_init ?v) then _ else _) _ =>
    destruct (all_init u); [|apply low_fail_l]; destruct (all_init v); [|apply low_fail_r] end.
  cbn [negb]. apply low_put; [exact H|]. unfold samelen. rewrite !zlen_Cipher_spec. reflexivity.
Qed.
Lemma low_enc im Nr p1 p2 s1 s2 c1 c2 : im <> AesC -> samelen c1 c2 ->
  low (aes_enc im Nr p1 s1 c1) (aes_enc im Nr p2 s2 c2) samelen.
Proof.
  intros Hi H. destruct im; [congruence|apply low_enc_ni, H|apply low_evp_block, H].
Qed.
Lemma low_ECB_ni im Nr p1 p2 len s1 s2 c1 c2 : im <> AesC -> samelen c1 c2 ->
  low (AES_ECB_enc_sch im Nr p1 len s1 c1) (AES_ECB_enc_sch im Nr p2 len s2 c2) samelen.
Proof.
  intros Hi H. unfold AES_ECB_enc_sch. lowstep. apply (low_for samelen); [exact H|]. intros i x1 x2 Hx.
  repeat lowstep. eapply low_bind; [apply low_enc; assumption|]. intros. lows.
Qed.
Lemma low_ECB_inplace_ni im Nr len s1 s2 c1 c2 : im <> AesC -> samelen c1 c2 ->
  low (AES_ECB_enc_sch_inplace im Nr c1 len s1) (AES_ECB_enc_sch_inplace im Nr c2 len s2) samelen.
Proof.
  intros Hi H. unfold AES_ECB_enc_sch_inplace. lowstep. apply (low_for samelen); [exact H|]. intros i x1 x2 Hx.
  repeat lowstep. eapply low_bind; [apply low_enc; assumption|]. intros. lows.
Qed.

(* ------------------------------------------------------------------ *)
(** ** The matrix code *)
(** With the portable AES the S-box is indexed by bytes that depend on the seed of A; with
    SHAKE and with the AES instructions not even that. *)
Definition seed_rel (g : genA) (im : aesimpl) (s1 s2 : list Z) : Prop := g = GenAES -> im = AesC -> s1 = s2.
Lemma low_mac s1 s2 x1 x2 y1 y2 : low (mac s1 x1 y1) (mac s2 x2 y2) any.
Proof. unfold mac. lows. Qed.
Lemma low_add_to o1 o2 i v1 v2 : samelen o1 o2 -> low (add_to o1 i v1) (add_to o2 i v2) samelen.
Proof. intros. unfold add_to. lows. Qed.
Lemma low_set_origin en s1 s2 i : samelen s1 s2 -> low (set_origin en s1 i) (set_origin en s2 i) samelen.
Proof. intros. unfold set_origin. lows. Qed.
Lemma low_shake_row en N A1 A2 row s1 s2 : samelen A1 A2 -> low (shake_row en N A1 row s1) (shake_row en N A2 row s2) samelen.
Proof.
  intros. unfold shake_row, shake128. lowstep. eapply low_bind; [apply low_shake; auto with low|]. intros. lows.
Qed.
Lemma low_shake_4rows al en N A1 A2 r0 a0 a1 a2 a3 b0 b1 b2 b3 : samelen A1 A2 ->
  low (shake_4rows al en N A1 r0 a0 a1 a2 a3) (shake_4rows al en N A2 r0 b0 b1 b2 b3) samelen.
Proof.
  intros. unfold shake_4rows. repeat lowstep.
  eapply low_bind; [apply low_shake128_4x; repeat split; auto with low|].
  intros [[[? ?] ?] ?] [[[? ?] ?] ?] (? & ? & ? & ?). lows.
Qed.
Lemma low_le_to_host en A1 A2 n : samelen A1 A2 -> low (le_to_host en A1 n) (le_to_host en A2 n) samelen.
Proof. intros. unfold le_to_host. apply low_for; [assumption|]. intros. lows. Qed.
Ltac head_more ::=
  lazymatch goal with
  | |- low (mac _ _ _) _ _ => apply low_mac
  | |- low (add_to _ _ _) _ _ => apply low_add_to; lsolve
  | |- low (set_origin _ _ _) _ _ => apply low_set_origin; lsolve
  | |- low (shake_row _ _ _ _ _) _ _ => apply low_shake_row; lsolve
  | |- low (shake_4rows _ _ _ _ _ _ _ _ _) _ _ => apply low_shake_4rows; lsolve
  | |- low (le_to_host _ _ _) _ _ => apply low_le_to_host; lsolve
  | |- low (shake _ _ _ _ _) _ _ => apply low_shake; lsolve
  | |- low (frodo_pack _ _ _ _ _) _ _ => apply low_pack; lsolve
  | |- low (frodo_unpack _ _ _ _ _) _ _ => apply low_unpack; lsolve
  | |- low (frodo_sample_n _ _ _) _ _ => apply low_sample_n; lsolve
  | |- low (clear_bytes _ _) _ _ => apply low_clear_bytes; lsolve
  | |- low (ct_verify _ _ _) _ _ => apply low_ct_verify
  | |- low (ct_select _ _ _ _ _) _ _ => apply low_ct_select; lsolve
  end.
Lemma aes_cases im : im = AesC \/ im <> AesC.
Proof. destruct im; [left; reflexivity|right; discriminate|right; discriminate]. Qed.
Lemma low_schedule im k1 k2 s1 s2 : (im = AesC -> k1 = k2 /\ s1 = s2) -> samelen s1 s2 ->
  low (AES128_load_schedule im k1 s1) (AES128_load_schedule im k2 s2) (fun a b => samelen a b /\ (im = AesC -> a = b)).
Proof.
  intros E H. destruct im; cbn [AES128_load_schedule].
  - destruct (E eq_refl) as (-> & ->). apply low_refl. intros; split; reflexivity.
  - eapply low_mono; [apply low_load_schedule_ni, H|]. intros a b Hab. split; [exact Hab|discriminate].
  - eapply low_mono; [apply low_evp_init, H|]. intros a b Hab. split; [exact Hab|discriminate].
Qed.
Lemma low_free s1 s2 n : samelen s1 s2 -> low (AES_free_schedule s1 n) (AES_free_schedule s2 n) samelen.
Proof. intros. unfold AES_free_schedule. lows. Qed.

(** *** Generation of A in the reference code *)
Lemma low_ref_genA en g im N sd1 sd2 : seed_rel g im sd1 sd2 ->
  low (ref_genA en g im N sd1) (ref_genA en g im N sd2) samelen.
Proof.
  intros E. unfold ref_genA. destruct g; cbv zeta.
  - destruct (aes_cases im) as [->|Hi].
    + rewrite (E eq_refl eq_refl). apply low_refl. reflexivity.
    + eapply low_bind with (R := samelen); [|intros; lows].
      eapply low_bind; [apply low_refl with (R := samelen); reflexivity|]. intros A1 A2 HA.
      eapply low_bind; [apply low_schedule; [congruence|reflexivity]|]. intros c1 c2 (Hc & _).
      eapply low_bind; [apply low_ECB_inplace_ni; [exact Hi|auto with low]|]. intros.
      eapply low_bind; [apply low_free; exact Hc|]. intros. lows.
  - eapply low_bind with (R := samelen); [|intros; lows]. lowstep.
    eapply low_bind; [apply (low_for len2); [split; [reflexivity|assumption]|]|].
    + intros i [x1 y1] [x2 y2] (Hx & Hy). cbn [fst snd] in Hx, Hy. lows.
    + intros [x1 y1] [x2 y2] (Hx & Hy). apply low_ret. exact Hx.
Qed.
Lemma low_ref_as en g im N o1 o2 s1 s2 e1 e2 sd1 sd2 : seed_rel g im sd1 sd2 -> samelen o1 o2 ->
  low (ref_as_plus_e en g im N o1 s1 e1 sd1) (ref_as_plus_e en g im N o2 s2 e2 sd2) samelen.
Proof.
  intros E H. unfold ref_as_plus_e. eapply low_bind; [apply low_ref_genA, E|]. intros A1 A2 HA. lowstep.
  apply (low_for samelen); [assumption|]. intros. apply (low_for samelen); [assumption|]. intros.
  eapply low_bind; [apply (low_for any); [exact I|]; intros; lows|]. intros. lows.
Qed.
Lemma low_ref_sa en g im N o1 o2 s1 s2 e1 e2 sd1 sd2 : seed_rel g im sd1 sd2 -> samelen o1 o2 ->
  low (ref_sa_plus_e en g im N o1 s1 e1 sd1) (ref_sa_plus_e en g im N o2 s2 e2 sd2) samelen.
Proof.
  intros E H. unfold ref_sa_plus_e. eapply low_bind; [apply low_ref_genA, E|]. intros A1 A2 HA. lowstep.
  apply (low_for samelen); [assumption|]. intros. apply (low_for samelen); [assumption|]. intros.
  eapply low_bind; [apply (low_for any); [exact I|]; intros; lows|]. intros. lows.
Qed.

(** *** The row generator of the optimized code *)
Definition gst_rel (im : aesimpl) (g1 g2 : gst) : Prop :=
  match g1, g2 with
  | GsAES a b, GsAES c d => samelen a c /\ samelen b d /\ (im = AesC -> a = c /\ b = d)
  | GsSHAKE a, GsSHAKE b => samelen a b
  | GsSHAKE4 a0 a1 a2 a3, GsSHAKE4 b0 b1 b2 b3 => samelen a0 b0 /\ samelen a1 b1 /\ samelen a2 b2 /\ samelen a3 b3
  | _, _ => False
  end.
(** The rows: with the portable AES they are equal, otherwise of equal length. *)
Definition rows_rel (im : aesimpl) (p1 p2 : list Z * gst) : Prop :=
  samelen (fst p1) (fst p2) /\ gst_rel im (snd p1) (snd p2) /\
  match snd p1 with GsAES _ _ => im = AesC -> fst p1 = fst p2 | _ => True end.
Lemma rows_rel_refl im p : rows_rel im p p.
Proof. destruct p as [a [| |]]; repeat split; reflexivity. Qed.
Lemma low_as_init en g im avx N sd1 sd2 : seed_rel g im sd1 sd2 ->
  low (as_init en g im avx N sd1) (as_init en g im avx N sd2)
    (fun a b => gst_rel im a b /\ match a with GsAES _ _ => g = GenAES | _ => g = GenSHAKE end).
Proof.
  intros E. unfold as_init. destruct g; cbv zeta.
  - eapply low_bind; [apply low_schedule; [intros ->; rewrite (E eq_refl eq_refl); auto|reflexivity]|].
    intros c1 c2 (Hc & Hc2). eapply low_bind; [apply low_refl with (R := eq); reflexivity|]. intros t1 t2 ->.
    apply low_ret. repeat split; auto.
  - destruct avx; lows.
Qed.
Lemma low_sa_init en g im avx N sd1 sd2 : seed_rel g im sd1 sd2 ->
  low (sa_init en g im avx N sd1) (sa_init en g im avx N sd2)
    (fun a b => gst_rel im a b /\ match a with GsAES _ _ => g = GenAES | _ => g = GenSHAKE end).
Proof.
  intros E. unfold sa_init. destruct g; cbv zeta.
  - eapply low_bind; [apply low_schedule; [intros ->; rewrite (E eq_refl eq_refl); auto|reflexivity]|].
    intros c1 c2 (Hc & Hc2). eapply low_bind; [apply low_refl with (R := eq); reflexivity|]. intros t1 t2 ->.
    apply low_ret. repeat split; auto.
  - destruct avx; lows.
Qed.
Lemma low_shake_rows en N R i A1 A2 s1 s2 : samelen A1 A2 -> samelen s1 s2 ->
  low (shake_rows en N R i A1 s1) (shake_rows en N R i A2 s2) len2.
Proof.
  intros HA Hs. unfold shake_rows. apply (low_for len2); [split; assumption|].
  intros q [x1 y1] [x2 y2] (Hx & Hy). cbn [fst snd] in Hx, Hy. lows.
Qed.
Lemma low_as_rows en im N i p1 p2 : rows_rel im p1 p2 ->
  low (as_rows en im N i (fst p1) (snd p1)) (as_rows en im N i (fst p2) (snd p2)) (rows_rel im).
Proof.
  destruct p1 as [A1 [c1 t1|s1|a0 a1 a2 a3]], p2 as [A2 [c2 t2|s2|b0 b1 b2 b3]]; intros (HA & Hg & HE); cbn [fst snd] in *; try contradiction.
  - destruct Hg as (Hc & Ht & Hq). destruct (aes_cases im) as [->|Hi].
    + destruct (Hq eq_refl) as (-> & ->). rewrite (HE eq_refl). apply low_refl. apply rows_rel_refl.
    + unfold as_rows. eapply low_bind; [apply (low_for_step samelen); [exact Ht|]; intros; lows|]. intros u1 u2 Hu.
      eapply low_bind; [apply low_ECB_ni; [exact Hi|auto with low]|]. intros b1 b2 Hb. apply low_ret.
      split; [cbn; auto with low|]. split; [|cbn; congruence]. cbn. repeat split; auto; congruence.
  - unfold as_rows. eapply low_bind; [apply low_shake_rows; assumption|]. intros [x1 y1] [x2 y2] (Hx & Hy). apply low_ret. repeat split; auto.
  - destruct Hg as (H0 & H1 & H2 & H3). unfold as_rows. lows.
Qed.
Lemma low_sa_rows en im N i p1 p2 : rows_rel im p1 p2 ->
  low (sa_rows en im N i (fst p1) (snd p1)) (sa_rows en im N i (fst p2) (snd p2)) (rows_rel im).
Proof.
  destruct p1 as [A1 [c1 t1|s1|a0 a1 a2 a3]], p2 as [A2 [c2 t2|s2|b0 b1 b2 b3]]; intros (HA & Hg & HE); cbn [fst snd] in *; try contradiction.
  - destruct Hg as (Hc & Ht & Hq). destruct (aes_cases im) as [->|Hi].
    + destruct (Hq eq_refl) as (-> & ->). rewrite (HE eq_refl). apply low_refl. apply rows_rel_refl.
    + unfold sa_rows. eapply low_bind; [apply (low_for samelen); [exact Ht|]; intros; apply (low_for_step samelen); [assumption|]; intros; lows|]. intros u1 u2 Hu.
      eapply low_bind; [apply low_ECB_ni; [exact Hi|auto with low]|]. intros b1 b2 Hb. apply low_ret.
      split; [cbn; auto with low|]. split; [|cbn; congruence]. cbn. repeat split; auto; congruence.
  - unfold sa_rows. eapply low_bind; [apply low_shake_rows; assumption|]. intros [x1 y1] [x2 y2] (Hx & Hy). apply low_ret. repeat split; auto.
  - destruct Hg as (H0 & H1 & H2 & H3). unfold sa_rows. lows.
Qed.
Lemma low_gst_free im g1 g2 : gst_rel im g1 g2 -> low (gst_free g1) (gst_free g2) any.
Proof.
  destruct g1, g2; cbn [gst_rel gst_free]; intros H; try contradiction; try (apply low_ret; exact I).
  eapply low_bind; [apply low_free, H|]. intros. apply low_ret; exact I.
Qed.
(** Converting the rows in place keeps the relation. *)
Lemma low_rows_host en im n p1 p2 : rows_rel im p1 p2 ->
  low (le_to_host en (fst p1) n) (le_to_host en (fst p2) n) (fun a b => rows_rel im (a, snd p1) (b, snd p2)).
Proof.
  destruct p1 as [A1 g1], p2 as [A2 g2]; intros (HA & Hg & HE); cbn [fst snd] in *.
  destruct g1; destruct g2; cbn [gst_rel] in Hg; try contradiction; try (eapply low_mono; [apply low_le_to_host, HA|]; intros a b Hab; split; [exact Hab|split; [exact Hg|exact I]]).
  cbn in HE. destruct (aes_cases im) as [->|Hi]; [rewrite (HE eq_refl); apply low_refl; intros; split; [apply samelen_refl|split; [exact Hg|intros _; reflexivity]]|].
  eapply low_mono; [apply low_le_to_host, HA|]; intros a b Hab; split; [exact Hab|split; [exact Hg|cbn; congruence]].
Qed.
Definition as_rel (im : aesimpl) (x y : list Z * list Z * gst) : Prop :=
  let '(o1, a1, g1) := x in let '(o2, a2, g2) := y in samelen o1 o2 /\ rows_rel im (a1, g1) (a2, g2).
Lemma low_opt_as en g im avx N o1 o2 s1 s2 e1 e2 sd1 sd2 : seed_rel g im sd1 sd2 -> samelen o1 o2 ->
  low (opt_as_plus_e en g im avx N o1 s1 e1 sd1) (opt_as_plus_e en g im avx N o2 s2 e2 sd2) samelen.
Proof.
  intros E H. unfold opt_as_plus_e. cbv zeta.
  eapply low_bind; [apply (low_for_step samelen); [exact H|]; intros; lows|]. intros x1 x2 Hx.
  eapply low_bind; [apply low_as_init, E|]. intros g1 g2 (Hg & _).
  eapply low_bind; [apply (low_for_step (as_rel im))|].
  - split; [exact Hx|]. split; [reflexivity|]. split; [exact Hg|]. destruct g1; cbn [fst snd]; auto.
  - intros i [[y1 a1] h1] [[y2 a2] h2] (Hy & Hr).
    eapply low_bind; [apply (low_as_rows en im N i _ _ Hr)|]. intros [b1 k1] [b2 k2] Hr2.
    eapply low_bind; [apply (low_rows_host en im (4 * N) _ _ Hr2)|]. intros c1 c2 Hr3. cbn [snd] in Hr3.
    eapply low_bind; [apply (low_for samelen); [exact Hy|]|].
    + intros k z1 z2 Hz. eapply low_bind; [apply (low_for any); [exact I|]; intros ? [[[? ?] ?] ?] [[[? ?] ?] ?] _; lows|].
      intros [[[? ?] ?] ?] [[[? ?] ?] ?] _. lows.
    + intros z1 z2 Hz. apply low_ret. split; assumption.
  - intros [[y1 a1] h1] [[y2 a2] h2] (Hy & (_ & Hr & _)). cbn [snd] in Hr.
    eapply low_bind; [apply (low_gst_free im), Hr|]. intros _ _ _. apply low_ret. exact Hy.
Qed.
Lemma low_sa_block N i A1 A2 s1 s2 e1 e2 : samelen e1 e2 -> low (sa_block N i A1 s1 e1) (sa_block N i A2 s2 e2) samelen.
Proof.
  intros H. unfold sa_block. apply (low_for samelen); [exact H|]. intros j x1 x2 Hx.
  eapply low_bind; [apply (low_for samelen); [reflexivity|]; intros; lows|]. intros p1 p2 Hp.
  apply (low_for samelen); [exact Hx|]. intros q y1 y2 Hy. lowstep.
  eapply low_bind; [apply (low_for any); [exact I|]; intros; lows|]. intros. lows.
Qed.
Lemma samelen_set1 x y : samelen (mm256_set1_epi16 x) (mm256_set1_epi16 y).
Proof. unfold samelen, mm256_set1_epi16. rewrite !zlen_zrep by lia. reflexivity. Qed.
#[export] Hint Resolve samelen_set1 : low.
Lemma low_mm256_load base l1 l2 i : low (mm256_load base l1 i) (mm256_load base l2 i) samelen.
Proof. unfold mm256_load. destruct (_ =? 0); [|apply low_fail_l]. lows. Qed.
Lemma low_mm256_store base l1 l2 i v1 v2 : samelen l1 l2 -> samelen v1 v2 ->
  low (mm256_store base l1 i v1) (mm256_store base l2 i v2) samelen.
Proof. intros. unfold mm256_store. destruct (_ =? 0); [|apply low_fail_l]. lows. Qed.
Lemma low_sa_block_avx ebase N i A1 A2 s1 s2 e1 e2 : samelen e1 e2 ->
  low (sa_block_avx ebase N i A1 s1 e1) (sa_block_avx ebase N i A2 s2 e2) samelen.
Proof.
  intros H. unfold sa_block_avx. apply (low_for samelen); [exact H|]. intros j x1 x2 Hx.
  eapply low_bind; [apply (low_for samelen); [reflexivity|]; intros; lows|].
  intros p1 p2 Hp. apply (low_for_step samelen); [exact Hx|]. intros q y1 y2 Hy.
  eapply low_bind; [apply low_mm256_load|]. intros.
  eapply low_bind; [apply (low_for samelen); [assumption|]|].
  - intros. eapply low_bind; [apply low_mm256_load|]. intros. lowstep. cbv zeta. apply low_ret.
    unfold samelen, mm256_add_epi16. rewrite !zlen_ztab by lia. reflexivity.
  - intros. apply low_mm256_store; assumption.
Qed.
Definition sa_rel (im : aesimpl) (x y : list Z * list Z * gst) : Prop := as_rel im x y.
Lemma low_opt_sa en g im avx N ebase o1 o2 s1 s2 e1 e2 sd1 sd2 : seed_rel g im sd1 sd2 -> samelen o1 o2 -> samelen e1 e2 ->
  low (opt_sa_plus_e en g im avx N ebase o1 s1 e1 sd1) (opt_sa_plus_e en g im avx N ebase o2 s2 e2 sd2) len2.
Proof.
  intros E H He. unfold opt_sa_plus_e. cbv zeta.
  eapply low_bind; [apply low_sa_init, E|]. intros g1 g2 (Hg & _).
  eapply low_bind; [apply (low_for_step (as_rel im))|].
  - split; [exact He|]. split; [reflexivity|]. split; [exact Hg|]. destruct g1; cbn [fst snd]; auto.
  - intros i [[y1 a1] h1] [[y2 a2] h2] (Hy & Hr).
    eapply low_bind; [apply (low_sa_rows en im N i _ _ Hr)|]. intros [b1 k1] [b2 k2] Hr2.
    eapply low_bind with (R := samelen); [destruct avx; [apply low_sa_block_avx|apply low_sa_block]; exact Hy|].
    intros z1 z2 Hz. apply low_ret. split; assumption.
  - intros [[y1 a1] h1] [[y2 a2] h2] (Hy & (_ & Hr & _)). cbn [snd] in Hr. lowstep.
    eapply low_bind; [apply (low_gst_free im), Hr|]. intros _ _ _. apply low_ret. split; assumption.
Qed.
Lemma low_as_plus_e C o1 o2 s1 s2 e1 e2 sd1 sd2 : seed_rel (cGen C) (cAes C) sd1 sd2 -> samelen o1 o2 ->
  low (as_plus_e C o1 s1 e1 sd1) (as_plus_e C o2 s2 e2 sd2) samelen.
Proof. intros E H. unfold as_plus_e. destruct (cImpl C); [apply low_ref_as|apply low_opt_as|apply low_opt_as]; auto. Qed.
Lemma low_sa_plus_e C ebase o1 o2 s1 s2 e1 e2 sd1 sd2 : seed_rel (cGen C) (cAes C) sd1 sd2 -> samelen o1 o2 -> samelen e1 e2 ->
  low (sa_plus_e C ebase o1 s1 e1 sd1) (sa_plus_e C ebase o2 s2 e2 sd2) len2.
Proof.
  intros E H He. unfold sa_plus_e. destruct (cImpl C); [|apply low_opt_sa; auto|apply low_opt_sa; auto].
  eapply low_bind; [apply low_ref_sa; auto|]. intros. apply low_ret. split; assumption.
Qed.
Lemma low_mul_bs P o1 o2 b1 b2 s1 s2 : samelen o1 o2 -> low (frodo_mul_bs P o1 b1 s1) (frodo_mul_bs P o2 b2 s2) samelen.
Proof.
  intros H. unfold frodo_mul_bs. cbv zeta. apply (low_for samelen); [exact H|]. intros. apply (low_for samelen); [assumption|]. intros.
  lowstep. eapply low_bind; [apply (low_for samelen); [assumption|]; intros; lows|]. intros. lows.
Qed.
Lemma low_sb_plus_e P o1 o2 b1 b2 s1 s2 e1 e2 : samelen o1 o2 ->
  low (frodo_mul_add_sb_plus_e P o1 b1 s1 e1) (frodo_mul_add_sb_plus_e P o2 b2 s2 e2) samelen.
Proof.
  intros H. unfold frodo_mul_add_sb_plus_e. cbv zeta. apply (low_for samelen); [exact H|]. intros. apply (low_for samelen); [assumption|]. intros.
  repeat lowstep. eapply low_bind; [apply (low_for samelen); [assumption|]; intros; lows|]. intros. lows.
Qed.
Lemma low_add P a1 a2 b1 b2 : samelen b1 b2 -> low (frodo_add P a1 b1) (frodo_add P a2 b2) samelen.
Proof. intros H. unfold frodo_add. apply (low_for samelen); [exact H|]. intros. lows. Qed.
Lemma low_fsub P a1 a2 b1 b2 : samelen b1 b2 -> low (frodo_sub P a1 b1) (frodo_sub P a2 b2) samelen.
Proof. intros H. unfold frodo_sub. apply (low_for samelen); [exact H|]. intros. lows. Qed.
(** An array and a public index. *)
Definition ix_rel (a b : list Z * Z) : Prop := samelen (fst a) (fst b) /\ snd a = snd b.
Lemma low_key_encode P o1 o2 i1 i2 : samelen o1 o2 -> low (frodo_key_encode P o1 i1) (frodo_key_encode P o2 i2) samelen.
Proof.
  intros H. unfold frodo_key_encode. cbv zeta. lowstep. eapply low_bind; [apply (low_for ix_rel); [split; [exact H|reflexivity]|]|].
  - intros i [x1 p1] [x2 p2] (Hx & Hp). cbn [fst snd] in Hx, Hp. subst p2.
    eapply low_bind; [apply (low_for any); [exact I|]; intros; lows|]. intros t1 t2 _.
    eapply low_bind; [apply (low_for (fun a b : list Z * Z * Z => ix_rel (fst a) (fst b))); [split; [exact Hx|reflexivity]|]|].
    + intros j [[y1 q1] u1] [[y2 q2] u2] (Hy & Hq). cbn [fst snd] in Hy, Hq. subst q2. lows.
    + intros [[y1 q1] u1] [[y2 q2] u2] Hy. apply low_ret. exact Hy.
  - intros [x1 p1] [x2 p2] (Hx & Hp). apply low_ret. exact Hx.
Qed.
Lemma low_key_decode P o1 o2 i1 i2 : samelen o1 o2 -> low (frodo_key_decode P o1 i1) (frodo_key_decode P o2 i2) samelen.
Proof.
  intros H. unfold frodo_key_decode. cbv zeta. repeat lowstep. eapply low_bind; [apply (low_for ix_rel); [split; [exact H|reflexivity]|]|].
  - intros i [x1 p1] [x2 p2] (Hx & Hp). cbn [fst snd] in Hx, Hp. subst p2.
    eapply low_bind; [apply (low_for (fun a b : Z * Z => snd a = snd b)); [reflexivity|]|].
    + intros j [t1 q1] [t2 q2] Hq. cbn [snd] in Hq. subst q2. lows.
    + intros [t1 q1] [t2 q2] Hq. cbn [snd] in Hq. subst q2.
      eapply low_bind; [apply (low_for samelen); [exact Hx|]; intros; lows|]. intros. apply low_ret. split; [assumption|reflexivity].
  - intros [x1 p1] [x2 p2] (Hx & Hp). apply low_ret. exact Hx.
Qed.
