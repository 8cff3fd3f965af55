(** Property C17 for whole processes: what an observer of control flow and addresses learns from a
    history of calls, including the calls of randombytes (random.c). *)
From Verif Require Import CSem Params FrodoSpec Random PropMatrix Kem KemProofs KemWp FrodoFacts PropKem PropKem2 PropRandom Process PropProcess PropCT.

(** Both wait, or both return, after the same trace. *)
Definition sync {A B} (m1 : res A) (m2 : res B) (R : A -> B -> Prop) : Prop :=
  (m1 = Err OutOfFuel /\ m2 = Err OutOfFuel) \/ exists a1 a2 t, m1 = Ok a1 t /\ m2 = Ok a2 t /\ R a1 a2.
Lemma sync_bind {A B A' B'} (m1 : res A) (m2 : res B) (f1 : A -> res A') (f2 : B -> res B') R Q :
  sync m1 m2 R -> (forall a b, R a b -> sync (f1 a) (f2 b) Q) -> sync (bind m1 f1) (bind m2 f2) Q.
Proof.
  intros [(-> & ->)|(a & b & t & -> & -> & HR)] HF; [left; auto|]. cbn [bind].
  destruct (HF a b HR) as [(-> & ->)|(a' & b' & t' & -> & -> & HQ)]; [left; auto|]. right. exists a', b', (t ++ t'). auto.
Qed.
Lemma sync_ret {A B} (a : A) (b : B) (R : A -> B -> Prop) : R a b -> sync (ret a) (ret b) R.
Proof. intros H. right. exists a, b, []. auto. Qed.
Lemma sync_emit e : sync (emit e) (emit e) (fun _ _ => True).
Proof. right. exists tt, tt, [e]. auto. Qed.
Lemma sync_mono {A B} (m1 : res A) (m2 : res B) (R Q : A -> B -> Prop) : sync m1 m2 R -> (forall a b, R a b -> Q a b) -> sync m1 m2 Q.
Proof. intros [H|(a & b & t & E1 & E2 & H)] HI; [left; exact H|right; exists a, b, t; auto]. Qed.
Lemma sync_i32 x : -2147483648 <= x < 2147483648 -> sync (i32 x) (i32 x) (fun a b => a = x /\ b = x).
Proof.
  intros H. right. destruct (wp_i32 x (fun v => v = x) H eq_refl) as (v & t & E & ->). exists x, x, t. auto.
Qed.
Lemma sync_put l1 l2 o x1 x2 : zlen l1 = zlen l2 -> zlen x1 = zlen x2 -> 0 <= o -> o + zlen x1 <= zlen l1 ->
  sync (put l1 o x1) (put l2 o x2) (fun a b => a = zsplice l1 o x1 /\ b = zsplice l2 o x2).
Proof.
  intros L X H1 H2. right. unfold put. rewrite <- L, <- X.
  destruct (Z.leb_spec 0 o); [|lia]. destruct (Z.leb_spec (o + zlen x1) (zlen l1)); [|lia]. cbn [andb]. eexists _, _, _. eauto.
Qed.

(** ** randombytes *)
Lemma read_retry_sync st1 st2 a : forall pos1 pos2 b1 b2 count n, good a -> 0 < n -> 0 <= count -> count + n <= zlen b1 -> zlen b1 = zlen b2 ->
  sync (read_retry st1 a pos1 b1 count n) (read_retry st2 a pos2 b2 count n)
    (fun '(c1, r1, a1, _) '(c2, r2, a2, _) => zlen c1 = zlen b1 /\ zlen c2 = zlen b1 /\ r1 = r2 /\ a1 = a2 /\ 0 <= r1 <= n /\ good a1).
Proof.
  induction a as [|[|k] a IH]; intros pos1 pos2 b1 b2 count n Hg Hn Hc Hb L; cbn [read_retry].
  - left; auto.
  - eapply sync_bind; [apply sync_emit|]. intros _ _ _. apply IH; auto. intros k Hk; apply Hg; right; exact Hk.
  - assert (0 <= k) by (apply Hg; left; reflexivity).
    eapply sync_bind; [apply sync_put; rewrite ?zlen_ztab; lia|]. intros c1 c2 (-> & ->).
    eapply sync_bind; [apply sync_emit|]. intros _ _ _. apply sync_ret. rewrite !zlen_zsplice by (rewrite ?zlen_ztab; lia).
    repeat split; try lia. intros j Hj; apply Hg; right; exact Hj.
Qed.
(** The system answers the two processes alike. *)
Definition same_answers (s1 s2 : os) : Prop := os_open s1 = os_open s2 /\ os_read s1 = os_read s2.
Lemma random_sync st1 st2 s1 s2 lock b1 b2 n : good (os_read s1) -> same_answers s1 s2 -> 0 <= n < 2 ^ 31 -> zlen b1 = n -> zlen b2 = n ->
  sync (randombytes_nix st1 s1 lock b1 n) (randombytes_nix st2 s2 lock b2 n)
    (fun '(_, _, lk1, t1) '(_, _, lk2, t2) => lk1 = lk2 /\ same_answers t1 t2).
Proof.
  intros Hg (Eo & Er) Hn L1 L2. unfold randombytes_nix. cbv zeta. rewrite to_int_small by exact Hn. rewrite <- Eo, <- Er.
  eapply (sync_bind _ _ _ _ (fun x y => x = y)).
  { unfold branch. eapply sync_bind; [apply sync_emit|]. intros _ _ _. destruct (lock =? -1); [|apply sync_ret; reflexivity].
    generalize (os_open s1) as l. induction l as [|fd l IH]; cbn [open_retry]; [left; auto|].
    unfold branch. eapply sync_bind; [apply sync_emit|]. intros _ _ _. destruct (fd =? -1); [exact IH|apply sync_ret; reflexivity]. }
  intros [lk o] y <-.
  assert (K : forall fuel b1 b2 count m a pos1 pos2, good a -> zlen b1 = n -> zlen b2 = n -> 0 <= count -> 0 <= m -> count + m = n ->
    sync (loop fuel (fun '(buf, count, n, a, pos) =>
      if 0 <? n then
        '(buf, r, a, pos) <- read_retry st1 a pos buf count n ;;
        count <- i32 (count + r) ;;
        n <- i32 (n - r) ;;
        ret ((buf, count, n, a, pos), true)
      else ret ((buf, count, n, a, pos), false)) (b1, count, m, a, pos1))
     (loop fuel (fun '(buf, count, n, a, pos) =>
      if 0 <? n then
        '(buf, r, a, pos) <- read_retry st2 a pos buf count n ;;
        count <- i32 (count + r) ;;
        n <- i32 (n - r) ;;
        ret ((buf, count, n, a, pos), true)
      else ret ((buf, count, n, a, pos), false)) (b2, count, m, a, pos2))
     (fun '(_, _, _, x, _) '(_, _, _, y, _) => x = y)).
  { clear - Hn. induction fuel as [|fuel IH]; intros b1 b2 c m a pos1 pos2 Ga Lb1 Lb2 Hc Hm Ec; [left; auto|]. cbn [loop]. destruct (Z.ltb_spec 0 m).
    - eapply (sync_bind _ _ _ _ (fun '(x1, c1, m1, a1, _, g1) '(x2, c2, m2, a2, _, g2) => zlen x1 = n /\ zlen x2 = n /\ c1 = c2 /\ m1 = m2 /\ a1 = a2 /\ good a1 /\ 0 <= c1 /\ 0 <= m1 /\ c1 + m1 = n /\ g1 = true /\ g2 = true)).
      + eapply sync_bind; [apply (read_retry_sync st1 st2 a pos1 pos2 b1 b2 c m); auto; lia|].
        intros [[[x1 r1] a1] q1] [[[x2 r2] a2] q2] (X1 & X2 & <- & <- & X5 & X6).
        eapply sync_bind; [apply sync_i32; lia|]. intros ? ? (-> & ->). eapply sync_bind; [apply sync_i32; lia|]. intros ? ? (-> & ->).
        apply sync_ret. repeat split; auto; lia.
      + intros [[[[[x1 c1] m1] a1] q1] g1] [[[[[x2 c2] m2] a2] q2] g2] (X1 & X2 & <- & <- & <- & X6 & X7 & X8 & X9 & -> & ->).
        eapply sync_bind; [apply sync_emit|]. intros _ _ _. apply IH; auto.
    - eapply sync_bind; [apply (sync_ret _ _ (fun x y => x = (b1, c, m, a, pos1, false) /\ y = (b2, c, m, a, pos2, false))); auto|].
      intros ? ? (-> & ->). eapply sync_bind; [apply sync_emit|]. intros _ _ _. apply sync_ret. reflexivity. }
  eapply sync_bind; [apply K; auto; lia|]. intros [[[[x1 c1] m1] a1] q1] [[[[x2 c2] m2] a2] q2] <-.
  apply sync_ret. split; [reflexivity|split; reflexivity].
Qed.

(** ** Actions *)
(** The same calls with the same addresses (and stores of the same lengths). *)
Definition same_places (a b : action) : Prop :=
  match a, b with
  | AKeyPair pk sk, AKeyPair pk' sk' => pk = pk' /\ sk = sk'
  | AEnc ct ss pk, AEnc ct' ss' pk' => ct = ct' /\ ss = ss' /\ pk = pk'
  | ADec ss ct sk, ADec ss' ct' sk' => ss = ss' /\ ct = ct' /\ sk = sk'
  | AStore x l, AStore x' l' => x = x' /\ zlen l = zlen l'
  | _, _ => False
  end.
(** What determines the public seed of A in a call: part of the random bytes, of pk, of sk. *)
Definition public_seed (P : params) (st : Z -> Z) (a : action) (pos : Z) (mem : list Z) : list Z :=
  match a with
  | AKeyPair _ _ => segment st (pos + 2 * pCB P) 16
  | AEnc _ _ pk => zslice mem pk 16
  | ADec _ _ sk => zslice mem (sk + pCB P) 16
  | AStore _ _ => []
  end.
(** Two histories that differ in secrets, messages, ciphertexts and random bytes at most; in builds
    with the table AES their public seeds agree. *)
Fixpoint alike (C : config) (st1 st2 : Z -> Z) (l1 l2 : list action) (pos1 pos2 : Z) (mem1 mem2 : list Z) : Prop :=
  match l1, l2 with
  | [], [] => True
  | a1 :: l1, a2 :: l2 =>
      same_places a1 a2 /\ (table_aes C -> public_seed (cP C) st1 a1 pos1 mem1 = public_seed (cP C) st2 a2 pos2 mem2) /\
      alike C st1 st2 l1 l2 (pos1 + takes (cP C) a1) (pos2 + takes (cP C) a2)
        (effect (cP C) (cGen C) st1 a1 pos1 mem1) (effect (cP C) (cGen C) st2 a2 pos2 mem2)
  | _, _ => False
  end.

Section One.
Variables (C : config) (st1 st2 : Z -> Z).
Let P := cP C.
Hypothesis V : valid P.
Hypothesis Hb : build_ok C.
Hypothesis Hsize : 2 * pCB P + 16 < 2 ^ 31.
Hypothesis Hst1 : forall i, 0 <= st1 i < 256.
Hypothesis Hst2 : forall i, 0 <= st2 i < 256.

Lemma same_trace_sync {A B} (m1 : res A) (m2 : res B) : same_trace m1 m2 -> sync m1 m2 (fun a b => returns m1 a /\ returns m2 b).
Proof. intros (v1 & v2 & t & E1 & E2). right. exists v1, v2, t. repeat split; auto; [exists t; exact E1|exists t; exact E2]. Qed.

Lemma after_sync p1 p2 n : good (os_read (p_os p1)) -> p_lock p1 = p_lock p2 -> same_answers (p_os p1) (p_os p2) -> 0 <= n < 2 ^ 31 ->
  sync (after_random st1 p1 n) (after_random st2 p2 n) (fun '(lk1, s1) '(lk2, s2) => lk1 = lk2 /\ same_answers s1 s2).
Proof.
  intros Hg El Ha Hn. unfold after_random. rewrite <- El.
  eapply sync_bind; [apply (random_sync st1 st2 (p_os p1) (p_os p2) (p_lock p1) (uninit n) (uninit n) n); auto; apply zlen_uninit; lia|].
  intros [[[b1 r1] lk1] s1] [[[b2 r2] lk2] s2] H. apply sync_ret. exact H.
Qed.
(** The generators leave the same trace when they deliver. *)
Lemma generators p1 p2 n : good (os_read (p_os p1)) -> good (os_read (p_os p2)) -> p_lock p1 = p_lock p2 -> same_answers (p_os p1) (p_os p2) -> 0 <= n < 2 ^ 31 ->
  (random_c st1 p1 (uninit n) n = Err OutOfFuel /\ random_c st2 p2 (uninit n) n = Err OutOfFuel) \/
  exists t, random_c st1 p1 (uninit n) n = Ok (segment st1 (os_pos (p_os p1)) n, 0) t /\ random_c st2 p2 (uninit n) n = Ok (segment st2 (os_pos (p_os p2)) n, 0) t.
Proof.
  intros Hg Hg2 El Ha Hn. unfold random_c. rewrite <- El.
  assert (L : zlen (uninit n) = n) by (apply zlen_uninit; lia).
  destruct (random_sync st1 st2 (p_os p1) (p_os p2) (p_lock p1) (uninit n) (uninit n) n Hg Ha Hn L L) as [(E1 & E2)|(v1 & v2 & t & E1 & E2 & _)].
  - left. rewrite E1, E2. auto.
  - right. destruct v1 as [[[b1 r1] lk1] s1], v2 as [[[b2 r2] lk2] s2].
    destruct (C20_whole_buffer _ _ _ _ _ _ _ _ _ Hg Hn L (ex_intro _ t E1)) as (-> & -> & _).
    destruct (C20_whole_buffer _ _ _ _ _ _ _ _ _ Hg2 Hn L (ex_intro _ t E2)) as (-> & -> & _).
    rewrite E1, E2. eexists. split; reflexivity.
Qed.

Definition twins (p1 p2 : process) : Prop :=
  zlen (p_mem p1) = zlen (p_mem p2) /\ p_lock p1 = p_lock p2 /\ same_answers (p_os p1) (p_os p2).
Lemma act_sync a1 a2 p1 p2 : good (os_read (p_os p1)) -> twins p1 p2 -> same_places a1 a2 -> fits P (p_mem p1) a1 -> fits P (p_mem p2) a2 ->
  (table_aes C -> public_seed P st1 a1 (os_pos (p_os p1)) (p_mem p1) = public_seed P st2 a2 (os_pos (p_os p2)) (p_mem p2)) ->
  sync (act C st1 a1 p1) (act C st2 a2 p2) (fun '(_, q1) '(_, q2) => p_lock q1 = p_lock q2 /\ same_answers (p_os q1) (p_os q2)).
Proof.
  intros Hg (Lm & El & Ha) Hp F1 F2 HT.
  assert (Hg2 : good (os_read (p_os p2))) by (rewrite <- (proj2 Ha); exact Hg).
  destruct (sizes C V) as (HN & HD & HB & HCB & ENN & EbB & HDN & EbC & EbMu & Epk & Esk & Ect & Esp & EH). fold P in HN, HD, HB, HCB, ENN, EbB, HDN, EbC, EbMu, Epk, Esk, Ect, Esp, EH.
  pose proof (v_B8 P V) as HB8.
  destruct a1 as [pk sk|ct ss pk|ss ct sk|a x], a2 as [pk' sk'|ct' ss' pk'|ss' ct' sk'|a' x']; cbn [same_places] in Hp; try contradiction; cbn [act fits public_seed] in *; fold P.
  - destruct Hp as (<- & <-). destruct F1 as (G1 & G2 & G3), F2 as (K1 & K2 & _). unfold SEEDA.
    destruct (generators p1 p2 (2 * pCB P + 16) Hg Hg2 El Ha ltac:(lia)) as [(E1 & E2)|(t & E1 & E2)].
    + left. split; erewrite keypair_err; try reflexivity; fold P; replace (pCB P + pCB P + 16) with (2 * pCB P + 16) by lia; eassumption.
    + eapply sync_bind.
      * apply same_trace_sync.
        assert (ES : forall st pos, segment st pos (2 * pCB P + 16) = segment st pos (pCB P) ++ segment st (pos + pCB P) (pCB P) ++ segment st (pos + 2 * pCB P) 16).
        { intros st pos. replace (2 * pCB P + 16) with (pCB P + (pCB P + 16)) by lia. rewrite !segment_app by lia. do 3 f_equal. lia. }
        rewrite ES in E1, E2.
        apply (C17_keypair C (random_c st1 p1) (random_c st2 p2) 0 0 t (p_mem p1) (p_mem p2) pk sk _ _ _ _ _ _ V Lm
          (segment_bytes st1 Hst1 _ (pCB P) ltac:(lia)) (segment_bytes st1 Hst1 _ (pCB P) ltac:(lia)) (segment_bytes st1 Hst1 _ 16 ltac:(lia))
          (segment_bytes st2 Hst2 _ (pCB P) ltac:(lia)) (segment_bytes st2 Hst2 _ (pCB P) ltac:(lia)) (segment_bytes st2 Hst2 _ 16 ltac:(lia)) E1 E2 G1 G2 G3 HT).
      * intros [[m1 l1] c1] [[m2 l2] c2] _. eapply sync_bind; [apply (after_sync p1 p2 (2 * pCB P + 16)); auto; lia|].
        intros [lk1 s1] [lk2 s2] H. apply sync_ret. exact H.
  - destruct Hp as (<- & <- & <-). destruct F1 as (G1 & G2 & G3 & G4 & G5), F2 as (K1 & K2 & K3 & K4 & K5).
    destruct (generators p1 p2 (bytesMu P) Hg Hg2 El Ha ltac:(lia)) as [(E1 & E2)|(t & E1 & E2)].
    + left. split; erewrite enc_err; try reflexivity; try eassumption.
    + eapply sync_bind.
      * apply same_trace_sync.
        apply (C17_enc C (random_c st1 p1) (random_c st2 p2) 0 0 t (p_mem p1) (p_mem p2) ct ss pk (zslice (p_mem p1) pk (pkBytes P)) (zslice (p_mem p2) pk (pkBytes P)) _ _ V Hb Lm
          (segment_bytes st1 Hst1 _ (bytesMu P) ltac:(lia)) (segment_bytes st2 Hst2 _ (bytesMu P) ltac:(lia)) E1 E2 (conj G3 eq_refl) (conj K3 eq_refl) G4 K4 G1 G2 G5).
        intros Ht. specialize (HT Ht). destruct G3 as (Q1 & Q2), K3 as (Q3 & Q4). rewrite !part_mem by lia. rewrite Z.add_0_r. exact HT.
      * intros [[m1 l1] c1] [[m2 l2] c2] _. eapply sync_bind; [apply (after_sync p1 p2 (bytesMu P)); auto; lia|].
        intros [lk1 s1] [lk2 s2] H. apply sync_ret. exact H.
  - destruct Hp as (<- & <- & <-). destruct F1 as (G1 & G2 & G3 & G4 & G5 & G6), F2 as (K1 & K2 & K3 & K4 & K5 & K6).
    eapply sync_bind.
    + apply same_trace_sync.
      apply (C17_dec C (p_mem p1) (p_mem p2) ss ct sk (zslice (p_mem p1) ct (ctBytes P)) (zslice (p_mem p1) sk (skBytes P)) (zslice (p_mem p2) ct (ctBytes P)) (zslice (p_mem p2) sk (skBytes P))
        V Hb Lm (conj G3 eq_refl) (conj K3 eq_refl) G5 K5 G6 (conj G2 eq_refl) (conj K2 eq_refl) G4 K4 G1).
      intros Ht. specialize (HT Ht). destruct G3 as (Q1 & Q2), K3 as (Q3 & Q4). fold P. rewrite !part_mem by lia. exact HT.
    + intros [[m1 l1] c1] [[m2 l2] c2] _. apply sync_ret. auto.
  - destruct Hp as (<- & Lx). destruct F1 as (G1 & G2). eapply sync_bind; [apply sync_put; auto|]. intros m1 m2 _. apply sync_ret. auto.
Qed.
End One.

(** ** Histories *)
(** Two processes perform the same sequence of calls with the same addresses, and the system
    answers both alike; their memories, keys, messages, ciphertexts and random bytes may all differ.
    Then they wait alike or leave the same trace from the first to the last instruction, including
    everything that random.c does. *)
Theorem C17_history : forall C st1 st2 l1 l2 p1 p2,
  valid (cP C) -> build_ok C -> 2 * pCB (cP C) + 16 < 2 ^ 31 -> (forall i, 0 <= st1 i < 256) -> (forall i, 0 <= st2 i < 256) ->
  good (os_read (p_os p1)) ->
  zlen (p_mem p1) = zlen (p_mem p2) -> p_lock p1 = p_lock p2 -> os_open (p_os p1) = os_open (p_os p2) -> os_read (p_os p1) = os_read (p_os p2) ->
  legal (cP C) (cGen C) st1 l1 (os_pos (p_os p1)) (p_mem p1) -> legal (cP C) (cGen C) st2 l2 (os_pos (p_os p2)) (p_mem p2) ->
  alike C st1 st2 l1 l2 (os_pos (p_os p1)) (os_pos (p_os p2)) (p_mem p1) (p_mem p2) ->
  (acts C st1 l1 p1 = Err OutOfFuel /\ acts C st2 l2 p2 = Err OutOfFuel) \/ same_trace (acts C st1 l1 p1) (acts C st2 l2 p2).
Proof.
  intros C st1 st2 l1 l2 p1 p2 V Hb Hs Hst1 Hst2. revert l2 p1 p2.
  assert (K : forall l1 l2 p1 p2, good (os_read (p_os p1)) -> twins p1 p2 ->
    legal (cP C) (cGen C) st1 l1 (os_pos (p_os p1)) (p_mem p1) -> legal (cP C) (cGen C) st2 l2 (os_pos (p_os p2)) (p_mem p2) ->
    alike C st1 st2 l1 l2 (os_pos (p_os p1)) (os_pos (p_os p2)) (p_mem p1) (p_mem p2) ->
    sync (acts C st1 l1 p1) (acts C st2 l2 p2) (fun _ _ => True)).
  { clear l1. induction l1 as [|a1 l1 IH]; intros [|a2 l2] p1 p2 Hg Ht L1 L2 HA; cbn [alike] in HA; try contradiction; cbn [acts].
    - apply sync_ret. exact I.
    - cbn [legal] in L1, L2. destruct L1 as (F1 & L1), L2 as (F2 & L2), HA as (Hp & HT & HA).
      assert (Hg2 : good (os_read (p_os p2))) by (destruct Ht as (_ & _ & _ & <-); exact Hg).
      destruct (act_sync C st1 st2 V Hb Hs Hst1 Hst2 a1 a2 p1 p2 Hg Ht Hp F1 F2 HT) as [(E1 & E2)|([c1 q1] & [c2 q2] & t & E1 & E2 & HR)].
      + left. rewrite E1, E2. auto.
      + destruct (act_cases C st1 V Hb Hs Hst1 a1 p1 Hg F1) as [E|(q1' & R1 & M1 & Q1 & Hg1)]; [rewrite E1 in E; discriminate|].
        destruct (act_cases C st2 V Hb Hs Hst2 a2 p2 Hg2 F2) as [E|(q2' & R2 & M2 & Q2 & Hg2')]; [rewrite E2 in E; discriminate|].
        pose proof (returns_inj _ _ _ (ex_intro _ t E1) R1) as X1. injection X1 as -> <-.
        pose proof (returns_inj _ _ _ (ex_intro _ t E2) R2) as X2. injection X2 as -> <-.
        destruct (effect_frame C st1 a1 (os_pos (p_os p1)) (p_mem p1) V F1) as (Le1 & _).
        destruct (effect_frame C st2 a2 (os_pos (p_os p2)) (p_mem p2) V F2) as (Le2 & _).
        rewrite <- M1, <- Q1 in *. rewrite <- M2, <- Q2 in *.
        apply (sync_bind _ _ _ _ (fun x y => x = (0, q1) /\ y = (0, q2))); [right; exists (0, q1), (0, q2), t; auto|].
        intros x y (-> & ->). cbv beta iota.
        eapply sync_bind; [apply IH; auto|intros [? ?] [? ?] _; apply sync_ret; exact I].
        split; [|exact HR]. destruct Ht as (Lm & _). lia. }
  intros l2 p1 p2 Hg Lm El Eo Er L1 L2 HA.
  destruct (K l1 l2 p1 p2 Hg (conj Lm (conj El (conj Eo Er))) L1 L2 HA) as [H|(v1 & v2 & t & E1 & E2 & _)]; [left; exact H|].
  right. exists v1, v2, t. auto.
Qed.
Print Assumptions C17_history.

(** Without the table AES only the places count. *)
Theorem C17_alike : forall C st1 st2 l1 l2 pos1 pos2 mem1 mem2, ~ table_aes C -> Forall2 same_places l1 l2 -> alike C st1 st2 l1 l2 pos1 pos2 mem1 mem2.
Proof.
  intros C st1 st2 l1 l2 pos1 pos2 mem1 mem2 Ht F. revert pos1 pos2 mem1 mem2. induction F as [|a1 a2 l1 l2 Hp _ IH]; intros; cbn [alike]; [exact I|].
  split; [exact Hp|]. split; [intros H; contradiction|]. apply IH.
Qed.
Print Assumptions C17_alike.
(** The history of [C43_hyps], and one at the same places whose memory and random bytes differ
    everywhere and which stores another byte. *)
Definition stream976' (i : Z) : Z := (i * i * 3 + 12) mod 256.
Definition actions976' : list action :=
  [AKeyPair 0 16000; AEnc 48000 64000 0; AEnc 65000 81000 0; AStore 65001 [99]; ADec 81100 48000 16000; ADec 81200 65000 16000].
Definition process976' : process := mkp mem976' (-1) {| os_open := [-1; 5]; os_read := answers976; os_pos := 77 |}.
Example C17_history_hyps :
  (forall i, 0 <= stream976' i < 256) /\
  zlen (p_mem process976) = zlen (p_mem process976') /\ p_lock process976 = p_lock process976' /\
  os_open (p_os process976) = os_open (p_os process976') /\ os_read (p_os process976) = os_read (p_os process976') /\
  legal (cP C976) (cGen C976) stream976' actions976' (os_pos (p_os process976')) (p_mem process976') /\
  alike C976 stream976 stream976' actions976 actions976' (os_pos (p_os process976)) (os_pos (p_os process976')) (p_mem process976) (p_mem process976').
Proof.
  assert (L : zlen mem976 = 100000) by (apply zlen_ztab; lia).
  assert (L' : zlen mem976' = 100000) by (apply zlen_ztab; lia).
  split; [intros; apply mod256|]. split; [transitivity 100000; [exact L|symmetry; exact L']|].
  split; [reflexivity|]. split; [reflexivity|]. split; [reflexivity|].
  split.
  { assert (B : bytes_ok mem976') by (apply inrange_ztab; intros; apply mod256).
    change (p_mem process976') with mem976'. revert L' B. clear L. generalize mem976'. intros mem L B.
    apply C43_placed; [exact valid_976|intros; apply mod256|exact B|]. rewrite L.
    assert (Epk : pkBytes (cP C976) = 15632) by reflexivity. assert (Esk : skBytes (cP C976) = 31296) by reflexivity.
    assert (Ect : ctBytes (cP C976) = 15744) by reflexivity. assert (ECB : pCB (cP C976) = 24) by reflexivity.
    unfold actions976'. repeat (apply Forall_cons || apply Forall_nil); unfold placed, disjoint; cbv zeta; rewrite ?Epk, ?Esk, ?Ect, ?ECB;
      repeat match goal with |- _ /\ _ => split | |- bytes_ok _ => repeat (apply Forall_cons || apply Forall_nil) | |- _ mod _ = _ => reflexivity end; try lia; cbn; lia. }
  apply C17_alike; [intros (H & _); discriminate H|].
  unfold actions976, actions976'. repeat (apply Forall2_cons || apply Forall2_nil); repeat split; reflexivity.
Qed.
