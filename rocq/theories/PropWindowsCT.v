(** Property C17 for whole processes on Windows: what an observer of control flow and addresses learns from a
    history of calls, including the calls of randombytes (random.c:28-34). *)
From Verif Require Import CSem Params FrodoSpec Random PropMatrix Kem KemProofs KemWp FrodoFacts PropKem PropKem2 PropRandom Process PropProcess PropCT PropProcessCT WinProcess PropWindows.

Lemma same_trace_bind {A B A' B'} (m1 : res A) (m2 : res B) (f1 : A -> res A') (f2 : B -> res B') : same_trace m1 m2 ->
  (forall a b, returns m1 a -> returns m2 b -> same_trace (f1 a) (f2 b)) -> same_trace (bind m1 f1) (bind m2 f2).
Proof.
  intros (a & b & t & -> & ->) H. destruct (H a b (ex_intro _ t eq_refl) (ex_intro _ t eq_refl)) as (a' & b' & t' & E1 & E2).
  exists a', b', (t ++ t'). cbn [bind]. rewrite E1, E2. auto.
Qed.
Lemma same_trace_ret {A B} (a : A) (b : B) : same_trace (ret a) (ret b).
Proof. exists a, b, []. auto. Qed.

Section One.
Variables (C : config) (st1 st2 : Z -> Z) (ok : nat -> bool).
Let P := cP C.
Hypothesis V : valid P.
Hypothesis Hb : build_ok C.
Hypothesis Hsize : 2 * pCB P + 16 < 2 ^ 32.
Hypothesis Hst1 : forall i, 0 <= st1 i < 256.
Hypothesis Hst2 : forall i, 0 <= st2 i < 256.

Lemma win_generators p1 p2 n : w_reqs p1 = w_reqs p2 -> ok (w_reqs p1) = true -> 0 <= n < 2 ^ 32 ->
  exists t, win_random st1 ok p1 (uninit n) n = Ok (segment st1 (w_pos p1) n, 0) t /\ win_random st2 ok p2 (uninit n) n = Ok (segment st2 (w_pos p2) n, 0) t.
Proof.
  intros Er Eo Hn. pose proof (win_delivers st1 ok p1 n Hn Eo) as (t1 & E1). rewrite Er in Eo. pose proof (win_delivers st2 ok p2 n Hn Eo) as (t2 & E2).
  exists t1. split; [exact E1|]. rewrite E2. f_equal. unfold win_random, randombytes_win in E1, E2. rewrite Er, Eo in E1. rewrite Eo in E2.
  rewrite Z.mod_small in E1, E2 by lia. unfold put in E1, E2. rewrite zlen_ztab in E1, E2 by lia.
  destruct ((0 <=? 0) && (0 + n <=? zlen (uninit n))); [|discriminate]. cbn [bind ret] in E1, E2. congruence.
Qed.
Lemma win_act_trace a1 a2 p1 p2 : zlen (w_mem p1) = zlen (w_mem p2) -> w_reqs p1 = w_reqs p2 -> same_places a1 a2 ->
  fits P (w_mem p1) a1 -> fits P (w_mem p2) a2 -> asks a1 && negb (ok (w_reqs p1)) = false ->
  (table_aes C -> public_seed P st1 a1 (w_pos p1) (w_mem p1) = public_seed P st2 a2 (w_pos p2) (w_mem p2)) ->
  same_trace (win_act C st1 ok a1 p1) (win_act C st2 ok a2 p2).
Proof.
  intros Lm Er Hp F1 F2 Ha HT.
  destruct (sizes C V) as (HN & HD & HB & HCB & ENN & EbB & HDN & EbC & EbMu & Epk & Esk & Ect & Esp & EH). fold P in HN, HD, HB, HCB, ENN, EbB, HDN, EbC, EbMu, Epk, Esk, Ect, Esp, EH.
  pose proof (v_B8 P V) as HB8.
  destruct a1 as [pk sk|ct ss pk|ss ct sk|a x], a2 as [pk' sk'|ct' ss' pk'|ss' ct' sk'|a' x']; cbn [same_places] in Hp; try contradiction; cbn [win_act fits public_seed asks andb] in *; fold P.
  - destruct Hp as (<- & <-). destruct F1 as (G1 & G2 & G3). apply negb_false_iff in Ha.
    destruct (win_generators p1 p2 (2 * pCB P + 16) Er Ha ltac:(lia)) as (t & E1 & E2).
    eapply same_trace_bind; [|intros [[m1 l1] c1] [[m2 l2] c2] _ _; apply same_trace_ret].
    assert (ES : forall st pos, segment st pos (2 * pCB P + 16) = segment st pos (pCB P) ++ segment st (pos + pCB P) (pCB P) ++ segment st (pos + 2 * pCB P) 16).
    { intros st pos. replace (2 * pCB P + 16) with (pCB P + (pCB P + 16)) by lia. rewrite !segment_app by lia. do 3 f_equal. lia. }
    rewrite ES in E1, E2.
    apply (C17_keypair C (win_random st1 ok p1) (win_random st2 ok p2) 0 0 t (w_mem p1) (w_mem p2) pk sk _ _ _ _ _ _ V Lm
      (segment_bytes st1 Hst1 _ (pCB P) ltac:(lia)) (segment_bytes st1 Hst1 _ (pCB P) ltac:(lia)) (segment_bytes st1 Hst1 _ 16 ltac:(lia))
      (segment_bytes st2 Hst2 _ (pCB P) ltac:(lia)) (segment_bytes st2 Hst2 _ (pCB P) ltac:(lia)) (segment_bytes st2 Hst2 _ 16 ltac:(lia)) E1 E2 G1 G2 G3 HT).
  - destruct Hp as (<- & <- & <-). destruct F1 as (G1 & G2 & G3 & G4 & G5), F2 as (K1 & K2 & K3 & K4 & K5). apply negb_false_iff in Ha.
    destruct (win_generators p1 p2 (bytesMu P) Er Ha ltac:(lia)) as (t & E1 & E2).
    eapply same_trace_bind; [|intros [[m1 l1] c1] [[m2 l2] c2] _ _; apply same_trace_ret].
    apply (C17_enc C (win_random st1 ok p1) (win_random st2 ok p2) 0 0 t (w_mem p1) (w_mem p2) ct ss pk (zslice (w_mem p1) pk (pkBytes P)) (zslice (w_mem p2) pk (pkBytes P)) _ _ V Hb Lm
      (segment_bytes st1 Hst1 _ (bytesMu P) ltac:(lia)) (segment_bytes st2 Hst2 _ (bytesMu P) ltac:(lia)) E1 E2 (conj G3 eq_refl) (conj K3 eq_refl) G4 K4 G1 G2 G5).
    intros Ht. specialize (HT Ht). destruct G3 as (Q1 & Q2), K3 as (Q3 & Q4). rewrite !part_mem by lia. rewrite Z.add_0_r. exact HT.
  - destruct Hp as (<- & <- & <-). destruct F1 as (G1 & G2 & G3 & G4 & G5 & G6), F2 as (K1 & K2 & K3 & K4 & K5 & K6).
    eapply same_trace_bind; [|intros [[m1 l1] c1] [[m2 l2] c2] _ _; apply same_trace_ret].
    apply (C17_dec C (w_mem p1) (w_mem p2) ss ct sk (zslice (w_mem p1) ct (ctBytes P)) (zslice (w_mem p1) sk (skBytes P)) (zslice (w_mem p2) ct (ctBytes P)) (zslice (w_mem p2) sk (skBytes P))
      V Hb Lm (conj G3 eq_refl) (conj K3 eq_refl) G5 K5 G6 (conj G2 eq_refl) (conj K2 eq_refl) G4 K4 G1).
    intros Ht. specialize (HT Ht). destruct G3 as (Q1 & Q2), K3 as (Q3 & Q4). fold P. rewrite !part_mem by lia. exact HT.
  - destruct Hp as (<- & Lx). destruct F1 as (G1 & G2). eapply same_trace_bind; [|intros m1 m2 _ _; apply same_trace_ret].
    destruct (sync_put (w_mem p1) (w_mem p2) a x x' Lm Lx G1 G2) as [(E & _)|(v1 & v2 & t & E1 & E2 & _)]; [|exists v1, v2, t; auto].
    exfalso. unfold put in E. destruct ((0 <=? a) && (a + zlen x <=? zlen (w_mem p1))); discriminate.
Qed.
End One.

(** Two processes on Windows perform the same sequence of calls with the same addresses, and BCryptGenRandom fails in
    both or in neither; their memories, keys, messages, ciphertexts and random bytes may all differ.  Then they leave
    the same trace from the first to the last instruction, if every request is served; if not, both have used bytes that
    were never set. *)
Theorem C17_windows : forall C st1 st2 ok l1 l2 p1 p2,
  valid (cP C) -> build_ok C -> 2 * pCB (cP C) + 16 < 2 ^ 32 -> (forall i, 0 <= st1 i < 256) -> (forall i, 0 <= st2 i < 256) ->
  zlen (w_mem p1) = zlen (w_mem p2) -> w_reqs p1 = w_reqs p2 ->
  legal (cP C) (cGen C) st1 l1 (w_pos p1) (w_mem p1) -> legal (cP C) (cGen C) st2 l2 (w_pos p2) (w_mem p2) ->
  alike C st1 st2 l1 l2 (w_pos p1) (w_pos p2) (w_mem p1) (w_mem p2) ->
  if served ok (w_reqs p1) l1 then same_trace (win_acts C st1 ok l1 p1) (win_acts C st2 ok l2 p2)
  else win_acts C st1 ok l1 p1 = Err UB_uninit /\ win_acts C st2 ok l2 p2 = Err UB_uninit.
Proof.
  intros C st1 st2 ok l1 l2 p1 p2 V Hb Hs Hst1 Hst2. revert l2 p1 p2.
  induction l1 as [|a1 l1 IH]; intros [|a2 l2] p1 p2 Lm Er L1 L2 HA; cbn [alike] in HA; try contradiction; cbn [win_acts served].
  - apply same_trace_ret.
  - cbn [legal] in L1, L2. destruct L1 as (F1 & L1), L2 as (F2 & L2), HA as (Hp & HT & HA).
    pose proof (win_act_cases C st1 ok V Hb Hs Hst1 a1 p1 F1) as K1. pose proof (win_act_cases C st2 ok V Hb Hs Hst2 a2 p2 F2) as K2.
    assert (Ea : asks a2 = asks a1) by (destruct a1, a2; cbn [same_places] in Hp; try contradiction; reflexivity).
    rewrite Ea, <- Er in K2.
    destruct (asks a1 && negb (ok (w_reqs p1))) eqn:E.
    + apply andb_true_iff in E. destruct E as (-> & E). apply negb_true_iff in E. rewrite E. cbn [andb]. rewrite K1, K2. split; reflexivity.
    + pose proof (win_act_trace C st1 st2 ok V Hb Hs Hst1 Hst2 a1 a2 p1 p2 Lm Er Hp F1 F2 E HT) as T.
      destruct (effect_frame C st1 a1 (w_pos p1) (w_mem p1) V F1) as (Le1 & _). destruct (effect_frame C st2 a2 (w_pos p2) (w_mem p2) V F2) as (Le2 & _).
      set (q1 := mkw (effect (cP C) (cGen C) st1 a1 (w_pos p1) (w_mem p1)) (if asks a1 then S (w_reqs p1) else w_reqs p1) (w_pos p1 + takes (cP C) a1)) in *.
      set (q2 := mkw (effect (cP C) (cGen C) st2 a2 (w_pos p2) (w_mem p2)) (if asks a1 then S (w_reqs p1) else w_reqs p1) (w_pos p2 + takes (cP C) a2)) in *.
      pose proof (IH l2 q1 q2 ltac:(subst q1 q2; cbn [w_mem]; lia) eq_refl L1 L2 HA) as I.
      replace (if asks a1 then ok (w_reqs p1) && served ok (S (w_reqs p1)) l1 else served ok (w_reqs p1) l1) with (served ok (w_reqs q1) l1).
      2: { subst q1. cbn [w_reqs]. destruct (asks a1); [|reflexivity]. cbn [andb] in E. apply negb_false_iff in E. rewrite E. reflexivity. }
      destruct (served ok (w_reqs q1) l1).
      * eapply same_trace_bind; [exact T|]. intros x y R1 R2.
        rewrite (returns_inj _ _ _ R1 K1), (returns_inj _ _ _ R2 K2). cbv beta iota.
        eapply same_trace_bind; [exact I|]. intros [? ?] [? ?] _ _. apply same_trace_ret.
      * destruct I as (I1 & I2). split; [eapply bind_err; [exact K1|]|eapply bind_err; [exact K2|]]; cbv beta iota; [rewrite I1|rewrite I2]; reflexivity.
Qed.
Print Assumptions C17_windows.
(** The processes of C17_history_hyps. *)
Definition wprocess976' : wprocess := mkw mem976' 0 77.
Example C17_windows_hyps :
  valid (cP C976) /\ build_ok C976 /\ 2 * pCB (cP C976) + 16 < 2 ^ 32 /\ (forall i, 0 <= stream976 i < 256) /\ (forall i, 0 <= stream976' i < 256) /\
  zlen (w_mem wprocess976) = zlen (w_mem wprocess976') /\ w_reqs wprocess976 = w_reqs wprocess976' /\
  legal (cP C976) (cGen C976) stream976 actions976 (w_pos wprocess976) (w_mem wprocess976) /\
  legal (cP C976) (cGen C976) stream976' actions976' (w_pos wprocess976') (w_mem wprocess976') /\
  alike C976 stream976 stream976' actions976 actions976' (w_pos wprocess976) (w_pos wprocess976') (w_mem wprocess976) (w_mem wprocess976') /\
  served (fun _ => true) (w_reqs wprocess976) actions976 = true.
Proof.
  destruct C43_windows_hyps as (H1 & H2 & H3 & H4 & H5 & H6 & _). destruct C17_history_hyps as (K1 & K2 & _ & _ & _ & K3 & K4).
  repeat (split; [assumption || reflexivity|]). exact H6.
Qed.
